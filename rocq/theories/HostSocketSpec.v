(* Vocabulary for statements about calls over the socket. *)
From Verif Require Import HostSocket.

Definition reachable (cap n : nat) (s : sock) : Prop := exists es, run cap (sock0 n) es = Some s.
(* message i has been given to SendMessage, which has not returned *)
Definition waiting (s : sock) (i : nat) : Prop := exists id, nth_error (callers s) i = Some (CSend id) \/ nth_error (callers s) i = Some (CWait id).
Definition returned (s : sock) (i : nat) (r : res) : Prop := nth_error (callers s) i = Some (CDone r).
(* the statuses with which the enclave's core has finished message i *)
Definition statuses (s : sock) (i : nat) : list N := map snd (filter (fun p => fst p =? i) (served s)).
(* the host has not yet made 2^64 calls *)
Definition young (s : sock) : Prop := (N.of_nat (length (callers s)) < 2 ^ 64)%N.

(* steps of what has begun: nothing new is called, put out or lost *)
Definition goes_on (e : event) : bool :=
  match e with ESend _ | ETake _ | EEnd _ _ | EReply _ | ERead | EPut | ETakeOut => true | _ => false end.
Definition cannot_go_on (cap : nat) (s : sock) : Prop := forall e, goes_on e = true -> step cap s e = None.
(* how much is left to do of what has begun *)
Definition work_c (c : caller) : nat := match c with CSend _ => 7 | _ => 0 end.
Definition work_t (t : thread) : nat := match t with TIdle => 0 | TRun _ _ => 5 | TReply _ _ _ => 4 end.
Definition work (s : sock) : nat :=
  list_sum (map work_c (callers s)) + 6 * length (up s) + list_sum (map work_t (threads s)) + 3 * length (dn s)
  + match rd s with RPut _ _ => 2 | _ => 0 end + length (chan s).
