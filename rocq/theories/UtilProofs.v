From Verif Require Import Util.

Lemma lor_disjoint x y j : x mod 2 ^ j = 0 -> y < 2 ^ j -> N.lor x y = x + y.
Proof.
  intros Hx Hy.
  assert (Hl : N.land x y = 0).
  { apply N.bits_inj; intros n; rewrite N.land_spec, N.bits_0.
    destruct (N.ltb_spec n j) as [Hn|Hn].
    - assert (E : N.testbit (x mod 2 ^ j) n = false) by (rewrite Hx; apply N.bits_0).
      rewrite N.mod_pow2_bits_low in E by exact Hn; now rewrite E.
    - destruct (N.eq_dec y 0) as [->|Hne]; [now rewrite N.bits_0, andb_false_r|].
      rewrite (N.bits_above_log2 y n), andb_false_r; [reflexivity|].
      apply N.log2_lt_pow2 in Hy; lia. }
  rewrite <- N.lxor_lor by exact Hl. symmetry; now apply N.add_nocarry_lxor.
Qed.

Lemma byte_at_lt v k : byte_at v k < 256.
Proof. unfold byte_at; apply N.mod_lt; lia. Qed.

Lemma byte_at_div v k : byte_at v k = (v / 2 ^ (8 * k)) mod 256.
Proof. unfold byte_at; now rewrite N.shiftr_div_pow2. Qed.

Arguments N.mul : simpl never.
Arguments N.add : simpl never.
Arguments N.pow : simpl never.
Arguments N.modulo : simpl never.
Arguments N.div : simpl never.

(* N.lor chain to sum *)
Lemma be32_from_sum b0 b1 b2 b3 rest :
  b0 < 256 -> b1 < 256 -> b2 < 256 -> b3 < 256 ->
  be32_from (b0 :: b1 :: b2 :: b3 :: rest) =
  Some (b0 * 2 ^ 24 + b1 * 2 ^ 16 + b2 * 2 ^ 8 + b3).
Proof.
  intros H0 H1 H2 H3; cbn [be32_from].
  rewrite !N.shiftl_mul_pow2.
  rewrite (lor_disjoint (b0 * 2 ^ 24) (b1 * 2 ^ 16) 24) by
    (change (2 ^ 24) with 16777216; change (2 ^ 16) with 65536; lia).
  rewrite (lor_disjoint _ (b2 * 2 ^ 8) 16) by
    (change (2 ^ 24) with 16777216; change (2 ^ 16) with 65536; change (2 ^ 8) with 256; lia).
  rewrite (lor_disjoint _ (b3 * 2 ^ 0) 8) by
    (change (2 ^ 24) with 16777216; change (2 ^ 16) with 65536; change (2 ^ 8) with 256;
     change (2 ^ 0) with 1; lia).
  f_equal; change (2 ^ 0) with 1; lia.
Qed.

Ltac pows :=
  change (2 ^ 56) with 72057594037927936; change (2 ^ 48) with 281474976710656;
  change (2 ^ 40) with 1099511627776; change (2 ^ 32) with 4294967296;
  change (2 ^ 24) with 16777216; change (2 ^ 16) with 65536;
  change (2 ^ 8) with 256; change (2 ^ 0) with 1.

Lemma mul_mod_zero x a b : b <= a -> x * 2 ^ a mod 2 ^ b = 0.
Proof.
  intros H. replace a with (b + (a - b)) by lia.
  rewrite N.pow_add_r, (N.mul_comm (2 ^ b)), N.mul_assoc.
  apply N.mod_mul; apply N.pow_nonzero; lia.
Qed.

Lemma add_mod_zero x y m : m <> 0 -> x mod m = 0 -> y mod m = 0 -> (x + y) mod m = 0.
Proof. intros Hm Hx Hy; rewrite N.add_mod, Hx, Hy by exact Hm; now apply N.mod_0_l. Qed.

Lemma be64_from_sum b0 b1 b2 b3 b4 b5 b6 b7 rest :
  b0 < 256 -> b1 < 256 -> b2 < 256 -> b3 < 256 ->
  b4 < 256 -> b5 < 256 -> b6 < 256 -> b7 < 256 ->
  be64_from (b0 :: b1 :: b2 :: b3 :: b4 :: b5 :: b6 :: b7 :: rest) =
  Some (b0 * 2 ^ 56 + b1 * 2 ^ 48 + b2 * 2 ^ 40 + b3 * 2 ^ 32 +
        b4 * 2 ^ 24 + b5 * 2 ^ 16 + b6 * 2 ^ 8 + b7).
Proof.
  intros; cbn [be64_from]; rewrite !N.shiftl_mul_pow2.
  assert (Hnz : forall k, 2 ^ k <> 0) by (intros; apply N.pow_nonzero; lia).
  rewrite (lor_disjoint (b0 * 2 ^ 56) (b1 * 2 ^ 48) 56);
    [|apply mul_mod_zero; lia|pows; lia].
  rewrite (lor_disjoint _ (b2 * 2 ^ 40) 48);
    [|repeat apply add_mod_zero; auto; apply mul_mod_zero; lia|pows; lia].
  rewrite (lor_disjoint _ (b3 * 2 ^ 32) 40);
    [|repeat apply add_mod_zero; auto; apply mul_mod_zero; lia|pows; lia].
  rewrite (lor_disjoint _ (b4 * 2 ^ 24) 32);
    [|repeat apply add_mod_zero; auto; apply mul_mod_zero; lia|pows; lia].
  rewrite (lor_disjoint _ (b5 * 2 ^ 16) 24);
    [|repeat apply add_mod_zero; auto; apply mul_mod_zero; lia|pows; lia].
  rewrite (lor_disjoint _ (b6 * 2 ^ 8) 16);
    [|repeat apply add_mod_zero; auto; apply mul_mod_zero; lia|pows; lia].
  rewrite (lor_disjoint _ (b7 * 2 ^ 0) 8);
    [|repeat apply add_mod_zero; auto; apply mul_mod_zero; lia|pows; lia].
  f_equal; change (2 ^ 0) with 1; lia.
Qed.

Lemma div_step v k : v / 2 ^ k = 256 * (v / 2 ^ (k + 8)) + (v / 2 ^ k) mod 256.
Proof.
  rewrite N.pow_add_r, <- N.div_div by (try (apply N.pow_nonzero); lia).
  change (2 ^ 8) with 256. apply N.div_mod; lia.
Qed.

Lemma be32_roundtrip v rest : v < 2 ^ 32 -> be32_from (be32 v ++ rest) = Some v.
Proof.
  intros Hv; unfold be32; cbn [app].
  rewrite be32_from_sum by apply byte_at_lt; f_equal.
  rewrite !byte_at_div.
  change (8 * 3) with 24; change (8 * 2) with 16; change (8 * 1) with 8; change (8 * 0) with 0.
  pose proof (div_step v 0); pose proof (div_step v 8); pose proof (div_step v 16);
    pose proof (div_step v 24).
  cbn [N.add] in *.
  change (0 + 8) with 8 in *; change (8 + 8) with 16 in *; change (16 + 8) with 24 in *;
    change (24 + 8) with 32 in *.
  assert (Hz : v / 2 ^ 32 = 0) by (apply N.div_small; exact Hv).
  change (2 ^ 0) with 1 in *; rewrite N.div_1_r in *.
  change (2 ^ 24) with 16777216 in *; change (2 ^ 16) with 65536 in *;
  change (2 ^ 8) with 256 in *; change (2 ^ 32) with 4294967296 in *; lia.
Qed.

Lemma be64_roundtrip v rest : v < 2 ^ 64 -> be64_from (be64 v ++ rest) = Some v.
Proof.
  intros Hv; unfold be64; cbn [app].
  rewrite be64_from_sum by apply byte_at_lt; f_equal.
  rewrite !byte_at_div.
  change (8 * 7) with 56; change (8 * 6) with 48; change (8 * 5) with 40; change (8 * 4) with 32;
  change (8 * 3) with 24; change (8 * 2) with 16; change (8 * 1) with 8; change (8 * 0) with 0.
  pose proof (div_step v 0) as H0; pose proof (div_step v 8) as H1;
  pose proof (div_step v 16) as H2; pose proof (div_step v 24) as H3;
  pose proof (div_step v 32) as H4; pose proof (div_step v 40) as H5;
  pose proof (div_step v 48) as H6; pose proof (div_step v 56) as H7.
  change (0 + 8) with 8 in *; change (8 + 8) with 16 in *; change (16 + 8) with 24 in *;
  change (24 + 8) with 32 in *; change (32 + 8) with 40 in *; change (40 + 8) with 48 in *;
  change (48 + 8) with 56 in *; change (56 + 8) with 64 in *.
  assert (Hz : v / 2 ^ 64 = 0) by (apply N.div_small; exact Hv).
  change (2 ^ 0) with 1 in *; rewrite N.div_1_r in *.
  set (q8 := v / 2 ^ 8) in *; set (q16 := v / 2 ^ 16) in *; set (q24 := v / 2 ^ 24) in *;
  set (q32 := v / 2 ^ 32) in *; set (q40 := v / 2 ^ 40) in *; set (q48 := v / 2 ^ 48) in *;
  set (q56 := v / 2 ^ 56) in *; set (q64 := v / 2 ^ 64) in *.
  set (r0 := v mod 256) in *; set (r1 := q8 mod 256) in *; set (r2 := q16 mod 256) in *;
  set (r3 := q24 mod 256) in *; set (r4 := q32 mod 256) in *; set (r5 := q40 mod 256) in *;
  set (r6 := q48 mod 256) in *; set (r7 := q56 mod 256) in *.
  clearbody r0 r1 r2 r3 r4 r5 r6 r7 q8 q16 q24 q32 q40 q48 q56 q64.
  pows; lia.
Qed.

Lemma be64_length v : length (be64 v) = 8%nat. Proof. reflexivity. Qed.
Lemma be32_length v : length (be32 v) = 4%nat. Proof. reflexivity. Qed.

Lemma be32_inj a b : a < 2 ^ 32 -> b < 2 ^ 32 -> be32 a = be32 b -> a = b.
Proof.
  intros Ha Hb E.
  pose proof (be32_roundtrip a [] Ha) as H1; pose proof (be32_roundtrip b [] Hb) as H2.
  rewrite E in H1; congruence.
Qed.

Lemma be64_inj a b : a < 2 ^ 64 -> b < 2 ^ 64 -> be64 a = be64 b -> a = b.
Proof.
  intros Ha Hb E.
  pose proof (be64_roundtrip a [] Ha) as H1; pose proof (be64_roundtrip b [] Hb) as H2.
  rewrite E in H1; congruence.
Qed.

Lemma be32_ok v : bytes_ok (be32 v) = true.
Proof.
  unfold be32, bytes_ok, byte_ok; cbn [forallb].
  rewrite !(proj2 (N.ltb_lt _ _)) by apply byte_at_lt; reflexivity.
Qed.
Lemma be64_ok v : bytes_ok (be64 v) = true.
Proof.
  unfold be64, bytes_ok, byte_ok; cbn [forallb].
  rewrite !(proj2 (N.ltb_lt _ _)) by apply byte_at_lt; reflexivity.
Qed.

(* little endian is the reverse *)
Lemma le64_rev v : le64 v = rev (be64 v).
Proof. reflexivity. Qed.
Lemma le64_inj a b : a < 2 ^ 64 -> b < 2 ^ 64 -> le64 a = le64 b -> a = b.
Proof.
  intros Ha Hb E; rewrite !le64_rev in E.
  apply (f_equal (@rev N)) in E; rewrite !rev_involutive in E; now apply be64_inj.
Qed.

(* the big-endian order of bytes is the numeric order: used by Minimums *)
Lemma bcmp_app_same p a b : bcmp (p ++ a) (p ++ b) = bcmp a b.
Proof. induction p as [|x p IH]; cbn; [reflexivity|]. now rewrite N.compare_refl. Qed.

(* --- constant-time comparison ---------------------------------------- *)

Lemma ct_loop_spec a b n off out :
  (n <= length a)%nat -> (n <= length b)%nat ->
  exists r, ct_loop a b n off out = Ret (r, map (fun i => off + N.of_nat i) (seq 0 n)) /\
            (r = 0 <-> out = 0 /\ firstn n a = firstn n b).
Proof.
  revert a b off out; induction n as [|n IH]; intros a b off out Ha Hb.
  - exists out; split; [reflexivity|]. cbn; tauto.
  - destruct a as [|x a]; [cbn in Ha; lia|]. destruct b as [|y b]; [cbn in Hb; lia|].
    cbn [length] in *; cbn [ct_loop].
    destruct (IH a b (off + 1) (N.lor out (N.lxor x y)) ltac:(lia) ltac:(lia)) as [r [E Hr]].
    rewrite E; exists r; split.
    + cbn [seq map]. do 2 f_equal. f_equal; [lia|].
      rewrite <- seq_shift, map_map. apply map_ext; intros i; lia.
    + cbn [firstn]; rewrite Hr, N.lor_eq_0_iff, N.lxor_eq_0_iff; split.
      * intros [[-> ->] ->]; auto.
      * intros [-> E2]; injection E2 as -> ->; auto.
Qed.

Lemma ct_equals_bytes_spec a b n :
  (n <= length a)%nat -> (n <= length b)%nat ->
  ct_equals_bytes a b n = Ret (beq (firstn n a) (firstn n b)).
Proof.
  intros Ha Hb; unfold ct_equals_bytes.
  destruct (ct_loop_spec a b n 0 0 Ha Hb) as [r [-> Hr]]; f_equal.
  destruct (beq_spec (firstn n a) (firstn n b)) as [E|E].
  - apply N.eqb_eq, Hr; auto.
  - apply N.eqb_neq; intros ->. destruct Hr as [Hr _]; destruct (Hr eq_refl); contradiction.
Qed.

Lemma ct_equals_prefix_spec a b n :
  ct_equals_prefix a b n =
  Ret (Nat.leb n (length a) && Nat.leb n (length b) && beq (firstn n a) (firstn n b)).
Proof.
  unfold ct_equals_prefix.
  destruct (Nat.ltb_spec (length a) n) as [H1|H1];
  destruct (Nat.leb_spec n (length a)) as [H3|H3]; try lia; cbn [orb andb]; [reflexivity|].
  destruct (Nat.ltb_spec (length b) n) as [H2|H2];
  destruct (Nat.leb_spec n (length b)) as [H4|H4]; try lia; cbn [orb andb]; [reflexivity|].
  now apply ct_equals_bytes_spec.
Qed.

Lemma ct_equals_spec a b : ct_equals a b = Ret (beq a b).
Proof.
  unfold ct_equals. destruct (Nat.eqb_spec (length a) (length b)) as [E|E]; cbn.
  - rewrite ct_equals_prefix_spec, Nat.leb_refl, E, Nat.leb_refl; cbn.
    rewrite <- E at 1; now rewrite !firstn_all.
  - f_equal; symmetry; apply beq_neq; congruence.
Qed.

Lemma copy_into_ok arr src :
  (length src <= length arr)%nat ->
  copy_into arr src = Ret (src ++ skipn (length src) arr).
Proof. intros H; unfold copy_into; now rewrite (proj2 (Nat.leb_le _ _) H). Qed.

Lemma skipn_zeros n k : skipn k (zeros n) = zeros (n - k).
Proof.
  revert k; induction n as [|n IH]; intros [|k]; cbn; auto.
Qed.

Lemma zeros_length n : length (zeros n) = n.
Proof. apply repeat_length. Qed.
