(* The protobuf wire format used by every message of the project (proto3
   encoding as produced by SerializeToString / consumed by ParseFromString).
   The protobuf library itself is not in /repo; this models its documented
   format for the field types the row messages use (proto/e2e.proto:85-124).
   Simplification: group wire types (3, 4), which no message of the project
   uses, make parsing fail instead of being skipped. *)
From Verif Require Export Base Util.

(* Base-128 varint of a uint64. [fuel] bounds the number of bytes. *)
Fixpoint varint_aux (fuel : nat) (n : N) : bytes :=
  match fuel with
  | O => []
  | S f => if n <? 128 then [n] else (n mod 128 + 128) :: varint_aux f (n / 128)
  end.
Definition varint (n : N) : bytes := varint_aux 10 n.

(* Reading: at most ten bytes, value truncated to 64 bits. *)
Fixpoint read_varint_aux (fuel : nat) (s : bytes) : option (N * bytes) :=
  match fuel with
  | O => None
  | S f =>
      match s with
      | [] => None
      | b :: s' =>
          if b <? 128 then Some (b, s')
          else match read_varint_aux f s' with
               | Some (n, rest) => Some ((b - 128) + 128 * n, rest)
               | None => None
               end
      end
  end.
Definition read_varint (s : bytes) : option (N * bytes) :=
  match read_varint_aux 10 s with
  | Some (n, rest) => Some (n mod 2 ^ 64, rest)
  | None => None
  end.

Inductive wval := WVar (n : N) | W64 (n : N) | WBytes (b : bytes) | W32 (b : bytes).
Definition field := (N * wval)%type.

Definition le64_from (s : bytes) : option (N * bytes) :=
  match s with
  | b0 :: b1 :: b2 :: b3 :: b4 :: b5 :: b6 :: b7 :: r =>
      match be64_from [b7; b6; b5; b4; b3; b2; b1; b0] with
      | Some n => Some (n, r)
      | None => None
      end
  | _ => None
  end.

Definition ser_field (fv : field) : bytes :=
  let (f, v) := fv in
  match v with
  | WVar n => varint (f * 8) ++ varint n
  | W64 n => varint (f * 8 + 1) ++ le64 n
  | WBytes b => varint (f * 8 + 2) ++ varint (blen b) ++ b
  | W32 b => varint (f * 8 + 5) ++ b
  end.
Definition ser_msg (l : list field) : bytes := flat_map ser_field l.

Definition read_val (wt : N) (s : bytes) : option (wval * bytes) :=
  if wt =? 0 then match read_varint s with Some (n, r) => Some (WVar n, r) | None => None end
  else if wt =? 1 then match le64_from s with Some (n, r) => Some (W64 n, r) | None => None end
  else if wt =? 2 then
    match read_varint s with
    | Some (n, r) => if blen r <? n then None
                     else Some (WBytes (firstn (N.to_nat n) r), skipn (N.to_nat n) r)
    | None => None
    end
  else if wt =? 5 then
    if Nat.ltb (length s) 4 then None else Some (W32 (firstn 4 s), skipn 4 s)
  else None.

Fixpoint parse_aux (fuel : nat) (s : bytes) : option (list field) :=
  match s with
  | [] => Some []
  | _ =>
    match fuel with
    | O => None
    | S fuel' =>
        match read_varint s with
        | None => None
        | Some (tag, r) =>
            if tag / 8 =? 0 then None else
            match read_val (tag mod 8) r with
            | None => None
            | Some (v, r') =>
                match parse_aux fuel' r' with
                | None => None
                | Some l => Some ((tag / 8, v) :: l)
                end
            end
        end
    end
  end.
Definition parse_msg (s : bytes) : option (list field) := parse_aux (length s) s.

(* Field access on a parsed message: the last occurrence with the declared wire
   type wins; absent is the proto3 default. *)
Fixpoint get_bytes (f : N) (l : list field) (d : bytes) : bytes :=
  match l with
  | [] => d
  | (g, WBytes b) :: l' => get_bytes f l' (if g =? f then b else d)
  | _ :: l' => get_bytes f l' d
  end.
Fixpoint get_var (f : N) (l : list field) (d : N) : N :=
  match l with
  | [] => d
  | (g, WVar n) :: l' => get_var f l' (if g =? f then n else d)
  | _ :: l' => get_var f l' d
  end.
Fixpoint get_64 (f : N) (l : list field) (d : N) : N :=
  match l with
  | [] => d
  | (g, W64 n) :: l' => get_64 f l' (if g =? f then n else d)
  | _ :: l' => get_64 f l' d
  end.
(* proto3 implicit presence: default values are not serialized *)
Definition opt_bytes (f : N) (b : bytes) : list field :=
  match b with [] => [] | _ => [(f, WBytes b)] end.
Definition opt_var (f : N) (n : N) : list field := if n =? 0 then [] else [(f, WVar n)].
Definition opt_64 (f : N) (n : N) : list field := if n =? 0 then [] else [(f, W64 n)].
