(* Model of enclave/util: endian.h, constant.h, bytes.h helpers. *)
From Verif Require Export Base.

(* --- util/endian.h --------------------------------------------------- *)

(* (uint8_t)(v >> (8*k)) *)
Definition byte_at (v : N) (k : N) : N := N.shiftr v (8 * k) mod 256.

(* endian.h BigEndian64Bytes (41-50) *)
Definition be64 (v : N) : bytes :=
  [byte_at v 7; byte_at v 6; byte_at v 5; byte_at v 4;
   byte_at v 3; byte_at v 2; byte_at v 1; byte_at v 0].
(* endian.h BigEndian32Bytes (52-57) *)
Definition be32 (v : N) : bytes :=
  [byte_at v 3; byte_at v 2; byte_at v 1; byte_at v 0].
(* endian.h LittleEndian64Bytes (59-68) *)
Definition le64 (v : N) : bytes :=
  [byte_at v 0; byte_at v 1; byte_at v 2; byte_at v 3;
   byte_at v 4; byte_at v 5; byte_at v 6; byte_at v 7].

(* endian.h BigEndian64FromBytes (10-19).  The C++ reads exactly eight bytes
   through a pointer; fewer available bytes is an out-of-bounds read (None). *)
Definition be64_from (s : bytes) : option N :=
  match s with
  | b0 :: b1 :: b2 :: b3 :: b4 :: b5 :: b6 :: b7 :: _ =>
      Some (N.lor (N.lor (N.lor (N.lor (N.lor (N.lor (N.lor
             (N.shiftl b0 56) (N.shiftl b1 48)) (N.shiftl b2 40)) (N.shiftl b3 32))
             (N.shiftl b4 24)) (N.shiftl b5 16)) (N.shiftl b6 8)) (N.shiftl b7 0))
  | _ => None
  end.
(* endian.h BigEndian32FromBytes (21-26) *)
Definition be32_from (s : bytes) : option N :=
  match s with
  | b0 :: b1 :: b2 :: b3 :: _ =>
      Some (N.lor (N.lor (N.lor
             (N.shiftl b0 24) (N.shiftl b1 16)) (N.shiftl b2 8)) (N.shiftl b3 0))
  | _ => None
  end.
(* endian.h BigEndian16FromBytes (28-31) *)
Definition be16_from (s : bytes) : option N :=
  match s with
  | b0 :: b1 :: _ => Some (N.lor (N.shiftl b0 8) (N.shiftl b1 0))
  | _ => None
  end.

(* --- util/constant.h -------------------------------------------------- *)

(* ConstantTimeEqualsBytes (9-15): accumulate `out |= *a++ ^ *b++` over exactly
   `size` bytes.  Reading past either string is an out-of-bounds read: Crash.
   The second component records the offsets read, in order. *)
Fixpoint ct_loop (a b : bytes) (size : nat) (off : N) (out : N) {struct size}
  : outcome (N * list N) :=
  match size with
  | O => Ret (out, [])
  | S n =>
      match a, b with
      | x :: a', y :: b' =>
          match ct_loop a' b' n (off + 1) (N.lor out (N.lxor x y)) with
          | Ret (r, tr) => Ret (r, off :: tr)
          | Crash => Crash
          end
      | _, _ => Crash
      end
  end.
Definition ct_equals_bytes (a b : bytes) (size : nat) : outcome bool :=
  match ct_loop a b size 0 0 with
  | Ret (out, _) => Ret (out =? 0)
  | Crash => Crash
  end.
(* ConstantTimeEqualsPrefix (18-25) *)
Definition ct_equals_prefix (a b : bytes) (n : nat) : outcome bool :=
  if (Nat.ltb (length a) n || Nat.ltb (length b) n)%bool then Ret false
  else ct_equals_bytes a b n.
(* ConstantTimeEquals (28-32) *)
Definition ct_equals (a b : bytes) : outcome bool :=
  if negb (Nat.eqb (length a) (length b)) then Ret false
  else ct_equals_prefix a b (length a).

(* --- array helpers ----------------------------------------------------- *)

Definition zeros (n : nat) : bytes := repeat 0 n.

(* std::copy(src.begin(), src.end(), arr.begin()) into a fixed array: writing
   past the array is undefined behaviour. *)
Definition copy_into (arr src : bytes) : outcome bytes :=
  if Nat.leb (length src) (length arr)
  then Ret (src ++ skipn (length src) arr)
  else Crash.
