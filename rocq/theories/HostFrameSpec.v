(* Vocabulary for the frames on connections between hosts. *)
From Verif Require Export HostFrame.

(* the number that a header of base-128 digits, least significant first, denotes *)
Fixpoint digits (h : bytes) : N :=
  match h with [] => 0 | b :: r => b mod 128 + 128 * digits r end.
(* all but the last have the high bit set *)
Fixpoint header (h : bytes) : Prop :=
  match h with [] => False | [b] => b < 128 | b :: r => 128 <= b < 256 /\ header r end.
(* write frames one after the other *)
Fixpoint write_all (ps : list bytes) : option bytes :=
  match ps with
  | [] => Some []
  | p :: r => match write_framed p, write_all r with Some a, Some b => Some (a ++ b) | _, _ => None end
  end.
(* read until nothing is left or there is an error (at most [f] frames) *)
Fixpoint read_all (f : nat) (input : bytes) : list bytes :=
  match f with
  | O => []
  | S f' => match f_out (read_framed input) with None => [] | Some p => p :: read_all f' (f_rest (read_framed input)) end
  end.
