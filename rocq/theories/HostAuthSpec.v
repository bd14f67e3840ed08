(* Vocabulary for credentials. *)
From Verif Require Export HostAuth.

(* decimal numerals: an optional sign, then digits *)
Definition numeric (ds : bytes) : Prop := ds <> [] /\ Forall (fun c => 48 <= c <= 57) ds.
Definition value (ds : bytes) : Z := fold_left (fun a c => (10 * a + (Z.of_N c - 48))%Z) ds 0%Z.
Definition numeral (t : bytes) (z : Z) : Prop :=
  (numeric t /\ z = value t) \/
  (exists ds, t = 43 :: ds /\ numeric ds /\ z = value ds) \/
  (exists ds, t = 45 :: ds /\ numeric ds /\ z = (- value ds)%Z).
(* the usual one: no plus, no leading zeros, no minus zero *)
Definition leading (ds : bytes) : Prop := ds = [48] \/ hd 48 ds <> 48.
Definition usual (t : bytes) (z : Z) : Prop :=
  (numeric t /\ leading t /\ z = value t) \/
  (exists ds, t = 45 :: ds /\ numeric ds /\ leading ds /\ z = (- value ds)%Z /\ (z < 0)%Z).
(* hexadecimal, in either case *)
Definition hexval (c v : N) : Prop :=
  (48 <= c <= 57 /\ v = c - 48) \/ (97 <= c <= 102 /\ v = c - 87) \/ (65 <= c <= 70 /\ v = c - 55).
Inductive hex : bytes -> bytes -> Prop :=
| hex_nil : hex [] []
| hex_cons a b x y s t : hexval a x -> hexval b y -> hex s t -> hex (a :: b :: s) (16 * x + y :: t).
(* nanoseconds since 1970, and times of the present era *)
Definition nanos (t : time) : Z := (t_sec t * 1000000000 + t_nsec t)%Z.
Definition era (t : time) : Prop := (0 <= t_sec t < 2 ^ 40)%Z /\ (0 <= t_nsec t < 1000000000)%Z.
Definition within (now : time) (ts expiration : Z) : Prop := (Z.abs (nanos now - ts * 1000000000) <= expiration)%Z.
(* an int64 *)
Definition int64 (z : Z) : Prop := (- 2 ^ 63 <= z < 2 ^ 63)%Z.
(* HMAC-SHA256 gives 32 bytes *)
Definition mac32 (hmac : bytes -> bytes) : Prop := forall m, length (hmac m) = 32%nat /\ bytes_ok (hmac m) = true.
