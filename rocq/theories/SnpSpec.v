(* Vocabulary for statements about SNP certificate tables and minimum values. *)
From Verif Require Import Util SMap.

(* the lowest n bytes of v, least significant first *)
Fixpoint little_endian (n : nat) (v : N) : bytes :=
  match n with O => [] | S k => (v mod 256) :: little_endian k (v / 256) end.

(* an entry of a certificate table: where in the buffer the certificate of a kind is *)
Record entry := Entry { en_uuid : bytes; en_off : N; en_len : N }.
Definition entry_bytes (x : entry) : bytes := en_uuid x ++ little_endian 4 (en_off x) ++ little_endian 4 (en_len x).
(* it is an entry, and not the end of the table *)
Definition entry_ok (x : entry) : Prop :=
  length (en_uuid x) = 16%nat /\ bytes_ok (en_uuid x) = true /\ en_off x < 2 ^ 32 /\ en_len x < 2 ^ 32 /\
  entry_bytes x <> repeat 0 24.
(* s starts with the table t *)
Definition table (s : bytes) (t : list entry) : Prop :=
  Forall entry_ok t /\ exists rest, s = concat (map entry_bytes t) ++ repeat 0 24 ++ rest.
(* the certificate lies in the buffer *)
Definition fits (s : bytes) (x : entry) : Prop := en_off x + en_len x <= blen s.
Definition cert_of (s : bytes) (x : entry) : bytes := firstn (N.to_nat (en_len x)) (skipn (N.to_nat (en_off x)) s).
(* v is the certificate of the last entry of the kind; without one it is v0 *)
Definition last_of (s : bytes) (t : list entry) (uuid v0 v : bytes) : Prop :=
  (exists t1 x t2, t = t1 ++ x :: t2 /\ en_uuid x = uuid /\ (forall y, In y t2 -> en_uuid y <> uuid) /\ v = cert_of s x) \/
  ((forall y, In y t -> en_uuid y <> uuid) /\ v = v0).

(* the lower of two values in byte order *)
Definition lower (a b : bytes) : bytes := if blt a b then a else b.
