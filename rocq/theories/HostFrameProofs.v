(* Proofs about the frames on connections between hosts. *)
From Verif Require Import HostFrameSpec.

Lemma lor_add x b s : x < 2 ^ s -> N.lor x (N.shiftl b s) = x + b * 2 ^ s.
Proof.
  intros H. rewrite N.shiftl_mul_pow2.
  assert (Hl : N.land x (b * 2 ^ s) = 0).
  { apply N.bits_inj. intros i. rewrite N.land_spec, N.bits_0. destruct (N.lt_ge_cases i s) as [Hi|Hi].
    - rewrite N.mul_pow2_bits_low by assumption. apply Bool.andb_false_r.
    - replace (N.testbit x i) with false; [reflexivity|]. symmetry.
      destruct (N.eq_dec x 0) as [->|Hx]; [apply N.bits_0|]. apply N.bits_above_log2. apply N.log2_lt_pow2 in H; lia. }
  rewrite <- N.lxor_lor by assumption. symmetry. now apply N.add_nocarry_lxor.
Qed.
Lemma land127 b : N.land b 127 = b mod 128.
Proof. change 127 with (N.ones 7). now rewrite N.land_ones. Qed.
Lemma low7 x : N.land (N.lor (x mod 256) 128) 127 = x mod 128.
Proof.
  rewrite N.land_lor_distr_l. change (N.land 128 127) with 0. rewrite N.lor_0_r, land127.
  change 256 with (128 * 2). rewrite N.mod_mul_r by lia. rewrite N.mul_comm, N.mod_add by lia. apply N.mod_mod. lia.
Qed.
Lemma byte_high x : 128 <= N.lor (x mod 256) 128 < 256.
Proof.
  assert (H : x mod 256 < 256) by (apply N.mod_lt; lia). generalize dependent (x mod 256). intros y H.
  assert (Hy : y = y mod 128 + 128 * (y / 128)) by (rewrite N.add_comm; apply N.div_mod; lia).
  assert (Hd : y / 128 = 0 \/ y / 128 = 1) by (assert (y / 128 < 2) by (apply N.div_lt_upper_bound; lia); lia).
  assert (Hm : y mod 128 < 2 ^ 7) by (apply N.mod_lt; lia).
  assert (E : N.lor (y mod 128) 128 = y mod 128 + 128) by (exact (lor_add (y mod 128) 1 7 Hm)).
  destruct Hd as [Hd|Hd]; rewrite Hd in Hy.
  - rewrite Hy, N.mul_0_r, N.add_0_r, E. change (2 ^ 7) with 128 in Hm. lia.
  - replace y with (N.lor (y mod 128) 128) by (rewrite E; lia). rewrite <- N.lor_assoc, N.lor_diag, E. change (2 ^ 7) with 128 in Hm. lia.
Qed.

(* what is written as a header is read back *)
Lemma put_read f : forall s x n t, s + 7 * N.of_nat f = 70 -> x < 2 ^ s -> x + n * 2 ^ s < 2 ^ 64 -> (0 < f)%nat ->
  exists h, put_uvarint f n = Some h /\ read_uvarint f s x (h ++ t) = (Some (x + n * 2 ^ s), t).
Proof.
  induction f as [|f IH]; intros s x n t Hs Hx Hn Hf; [lia|]. cbn [put_uvarint].
  destruct (N.ltb_spec n 128) as [H|H].
  - exists [n]. split; [reflexivity|]. cbn [app read_uvarint]. replace (n <? 128) with true by (symmetry; now apply N.ltb_lt).
    rewrite lor_add by assumption.
    destruct ((f =? 0)%nat && (1 <? n))%bool eqn:E; [exfalso|reflexivity].
    apply Bool.andb_true_iff in E as [E1 E2]. apply Nat.eqb_eq in E1. apply N.ltb_lt in E2. subst f.
    replace s with 63 in Hn by lia. change (2 ^ 64) with (2 * 2 ^ 63) in Hn. assert (2 * 2 ^ 63 <= n * 2 ^ 63) by (apply N.mul_le_mono_r; lia). lia.
  - destruct f as [|f].
    { exfalso. replace s with 63 in Hn by lia. change (2 ^ 64) with (2 * 2 ^ 63) in Hn. assert (2 * 2 ^ 63 <= n * 2 ^ 63) by (apply N.mul_le_mono_r; lia). lia. }
    rewrite N.shiftr_div_pow2. change (2 ^ 7) with 128.
    assert (Hp : 2 ^ (s + 7) = 128 * 2 ^ s) by (rewrite N.pow_add_r; change (2 ^ 7) with 128; lia).
    assert (Hm : n mod 128 < 128) by (apply N.mod_lt; lia).
    assert (Ex : n * 2 ^ s = n mod 128 * 2 ^ s + n / 128 * 2 ^ (s + 7)).
    { rewrite Hp. rewrite (N.div_mod n 128) at 1 by lia. nia. }
    assert (Hx' : x + n mod 128 * 2 ^ s < 2 ^ (s + 7)).
    { rewrite Hp. assert (n mod 128 * 2 ^ s <= 127 * 2 ^ s) by (apply N.mul_le_mono_r; lia). lia. }
    destruct (IH (s + 7) (x + n mod 128 * 2 ^ s) (n / 128) t) as (h & E1 & E2); [lia|assumption|lia|lia|].
    rewrite E1. exists (N.lor (n mod 256) 128 :: h). split; [reflexivity|].
    cbn [app]. cbn [read_uvarint] in E2 |- *. pose proof (byte_high n) as Hb.
    replace (N.lor (n mod 256) 128 <? 128) with false by (symmetry; apply N.ltb_ge; lia).
    rewrite low7, lor_add by assumption. rewrite E2. f_equal. f_equal. rewrite Ex. lia.
Qed.
Lemma put_len f : forall n h, put_uvarint f n = Some h -> (1 <= length h <= f)%nat.
Proof.
  induction f as [|f IH]; intros n h E; [discriminate|]. cbn [put_uvarint] in E. destruct (n <? 128); [injection E as <-; cbn; lia|].
  destruct (put_uvarint f (N.shiftr n 7)) as [r|] eqn:Er; [|discriminate]. injection E as <-. apply IH in Er. cbn. lia.
Qed.
Lemma header_roundtrip n t : n < 2 ^ 64 -> exists h, put_uvarint 10 n = Some h /\ read_uvarint 10 0 0 (h ++ t) = (Some n, t).
Proof.
  intros H. destruct (put_read 10 0 0 n t) as (h & E1 & E2); [reflexivity|cbn; lia|rewrite N.pow_0_r; lia|lia|].
  exists h. split; [assumption|]. rewrite E2, N.pow_0_r. do 2 f_equal. lia.
Qed.
Lemma take_exact (p t : bytes) : firstn (N.to_nat (blen p)) (p ++ t) = p /\ skipn (N.to_nat (blen p)) (p ++ t) = t.
Proof.
  unfold blen. rewrite Nnat.Nat2N.id. split.
  - rewrite <- (Nat.add_0_r (length p)), firstn_app_2. cbn. apply app_nil_r.
  - rewrite skipn_app, skipn_all, Nat.sub_diag. reflexivity.
Qed.
Lemma frame_roundtrip p t : blen p <= max_message -> exists w, write_framed p = Some w /\ read_framed (w ++ t) = FRes (Some p) (blen p) t.
Proof.
  intros H. destruct (header_roundtrip (blen p) (p ++ t)) as (h & E1 & E2); [unfold max_message in H; change (2 ^ 64) with 18446744073709551616; lia|].
  unfold write_framed. rewrite E1. exists (h ++ p). split; [reflexivity|]. unfold read_framed. rewrite <- app_assoc, E2.
  replace (max_message <? blen p) with false by (symmetry; now apply N.ltb_ge).
  replace (blen (p ++ t) <? blen p) with false by (symmetry; apply N.ltb_ge; unfold blen; rewrite app_length; lia).
  destruct (take_exact p t) as [-> ->]. reflexivity.
Qed.
Lemma write_nonempty p w : write_framed p = Some w -> (1 <= length w)%nat.
Proof.
  unfold write_framed. destruct (put_uvarint 10 (blen p)) as [h|] eqn:E; [|discriminate]. intros X. injection X as <-.
  apply put_len in E. rewrite app_length. lia.
Qed.
Lemma all_roundtrip ps : Forall (fun p => blen p <= max_message) ps ->
  exists w, write_all ps = Some w /\ forall t, read_all (length ps) (w ++ t) = ps.
Proof.
  induction 1 as [|p ps Hp Hps (w & E1 & E2)]; [exists []; auto|]. cbn.
  destruct (frame_roundtrip p [] Hp) as (a & Ea & _). rewrite Ea, E1. exists (a ++ w). split; [reflexivity|]. intros t.
  rewrite <- app_assoc. destruct (frame_roundtrip p (w ++ t) Hp) as (a' & Ea' & Er). rewrite Ea in Ea'. injection Ea' as <-.
  rewrite Er. cbn. now rewrite E2.
Qed.
Lemma too_long p t : max_message < blen p -> blen p < 2 ^ 64 -> exists w, write_framed p = Some w /\ read_framed (w ++ t) = FRes None 0 (p ++ t).
Proof.
  intros H1 H2. destruct (header_roundtrip (blen p) (p ++ t) H2) as (h & E1 & E2).
  unfold write_framed. rewrite E1. exists (h ++ p). split; [reflexivity|]. unfold read_framed. rewrite <- app_assoc, E2.
  replace (max_message <? blen p) with true by (symmetry; now apply N.ltb_lt). reflexivity.
Qed.
(* --- any input --------------------------------------------------------------- *)
Lemma read_sound f : forall s x i n r, bytes_ok i = true -> x < 2 ^ s -> read_uvarint f s x i = (Some n, r) ->
  exists h, i = h ++ r /\ header h /\ (length h <= f)%nat /\ n = x + digits h * 2 ^ s.
Proof.
  induction f as [|f IH]; intros s x i n r Hok Hx E; [discriminate|]. cbn [read_uvarint] in E.
  destruct i as [|b i]; [discriminate|]. cbn in Hok. apply Bool.andb_true_iff in Hok as [Hb Hok']. apply N.ltb_lt in Hb.
  destruct (N.ltb_spec b 128) as [H|H].
  - destruct ((f =? 0)%nat && (1 <? b))%bool; [discriminate|]. injection E as <- <-. rewrite lor_add by assumption.
    exists [b]. cbn [digits app header length]. rewrite N.mod_small by assumption. repeat split; auto; [lia|]. lia.
  - rewrite land127, lor_add in E by assumption.
    assert (Hp : 2 ^ (s + 7) = 128 * 2 ^ s) by (rewrite N.pow_add_r; change (2 ^ 7) with 128; lia).
    assert (Hm : b mod 128 < 128) by (apply N.mod_lt; lia).
    apply IH in E; [|assumption|].
    + destruct E as (h & -> & Hh & Hl & ->). exists (b :: h). cbn [app length digits]. repeat split; [|lia|rewrite Hp; nia].
      cbn [header]. destruct h; [contradiction|]. split; [|assumption]. split; [assumption|exact Hb].
    + rewrite Hp. assert (b mod 128 * 2 ^ s <= 127 * 2 ^ s) by (apply N.mul_le_mono_r; lia). lia.
Qed.
Lemma read_consumed f : forall s x i o r, read_uvarint f s x i = (o, r) -> exists h, i = h ++ r /\ (length h <= f)%nat.
Proof.
  induction f as [|f IH]; intros s x i o r E; cbn [read_uvarint] in E; [injection E as <- <-; exists []; auto|].
  destruct i as [|b i]; [injection E as <- <-; exists []; cbn; split; [reflexivity|lia]|].
  destruct (b <? 128).
  - destruct ((f =? 0)%nat && (1 <? b))%bool; injection E as <- <-; exists [b]; cbn; split; auto; lia.
  - apply IH in E as (h & -> & Hl). exists (b :: h). cbn. split; [reflexivity|lia].
Qed.
Lemma frame_sound i p a r : bytes_ok i = true -> read_framed i = FRes (Some p) a r ->
  exists h, i = h ++ p ++ r /\ header h /\ (length h <= 10)%nat /\ digits h = blen p /\ a = blen p /\ blen p <= max_message.
Proof.
  intros Hok. unfold read_framed. destruct (read_uvarint 10 0 0 i) as [[n|] r1] eqn:E; [|discriminate].
  destruct (N.ltb_spec max_message n) as [|Hn]; [discriminate|]. destruct (N.ltb_spec (blen r1) n) as [|Hr]; [discriminate|].
  intros X. injection X as <- <- <-. apply read_sound in E; [|assumption|cbn; lia]. destruct E as (h & -> & Hh & Hl & En).
  rewrite N.pow_0_r in En.
  assert (Hlen : blen (firstn (N.to_nat n) r1) = n) by (unfold blen in *; rewrite firstn_length; unfold bytes in *; lia).
  exists h. rewrite Hlen. rewrite firstn_skipn. repeat split; auto. lia.
Qed.
Lemma frame_bounded i : f_alloc (read_framed i) <= max_message.
Proof.
  unfold read_framed. destruct (read_uvarint 10 0 0 i) as [[n|] r1]; [|cbn; unfold max_message; lia].
  destruct (N.ltb_spec max_message n) as [|Hn]; [cbn; unfold max_message; lia|]. destruct (blen r1 <? n); cbn; assumption.
Qed.
Lemma header_rejected i n r : read_uvarint 10 0 0 i = (Some n, r) -> max_message < n ->
  read_framed i = FRes None 0 r /\ exists h, i = h ++ r /\ (length h <= 10)%nat.
Proof.
  intros E H. split; [|eapply read_consumed; eauto]. unfold read_framed. rewrite E. now replace (max_message <? n) with true by (symmetry; now apply N.ltb_lt).
Qed.
(* a header is the only way to read its number *)
Lemma header_read f : forall s x h t, header h -> (length h <= f)%nat -> x < 2 ^ s -> s + 7 * N.of_nat f = 70 ->
  x + digits h * 2 ^ s < 2 ^ 64 -> read_uvarint f s x (h ++ t) = (Some (x + digits h * 2 ^ s), t).
Proof.
  induction f as [|f IH]; intros s x h t Hh Hl Hx Hs Hv; [destruct h; [contradiction|cbn in Hl; lia]|].
  destruct h as [|b h]; [contradiction|]. cbn [app read_uvarint].
  assert (Hp : 2 ^ (s + 7) = 128 * 2 ^ s) by (rewrite N.pow_add_r; change (2 ^ 7) with 128; lia).
  destruct h as [|b2 h].
  - cbn [header] in Hh. replace (b <? 128) with true by (symmetry; now apply N.ltb_lt). cbn [digits] in *. rewrite N.mod_small in * by assumption.
    rewrite lor_add by assumption. replace (b + 128 * 0) with b in * by lia.
    destruct ((f =? 0)%nat && (1 <? b))%bool eqn:E; [exfalso|reflexivity].
    apply Bool.andb_true_iff in E as [E1 E2]. apply Nat.eqb_eq in E1. apply N.ltb_lt in E2. subst f.
    replace s with 63 in Hv by lia. change (2 ^ 64) with (2 * 2 ^ 63) in Hv. assert (2 * 2 ^ 63 <= b * 2 ^ 63) by (apply N.mul_le_mono_r; lia). lia.
  - destruct Hh as [Hb Hh]. replace (b <? 128) with false by (symmetry; apply N.ltb_ge; lia). rewrite land127, lor_add by assumption.
    assert (Hm : b mod 128 < 128) by (apply N.mod_lt; lia).
    assert (Ed : digits (b :: b2 :: h) * 2 ^ s = b mod 128 * 2 ^ s + digits (b2 :: h) * 2 ^ (s + 7)).
    { rewrite Hp. change (digits (b :: b2 :: h)) with (b mod 128 + 128 * digits (b2 :: h)). nia. }
    rewrite Ed in *. rewrite IH; auto.
    + do 2 f_equal. lia.
    + cbn [length] in Hl |- *. lia.
    + rewrite Hp. assert (b mod 128 * 2 ^ s <= 127 * 2 ^ s) by (apply N.mul_le_mono_r; lia). lia.
    + lia.
    + lia.
Qed.
(* a frame cut short is an error *)
Lemma cut_header h : forall f s x k, header h -> (k < length h)%nat -> read_uvarint f s x (firstn k h) = (None, skipn f (firstn k h)).
Proof.
  induction h as [|b h IH]; intros f s x k Hh Hk; [contradiction|].
  destruct f as [|f]; [reflexivity|]. destruct k as [|k]; [reflexivity|]. cbn [firstn read_uvarint skipn].
  destruct h as [|b2 h]; [cbn in Hk; lia|]. destruct Hh as [Hb Hh].
  replace (b <? 128) with false by (symmetry; apply N.ltb_ge; lia). apply IH; [assumption|cbn in *; lia].
Qed.
Lemma put_header f : forall n h, put_uvarint f n = Some h -> header h.
Proof.
  induction f as [|f IH]; intros n h E; [discriminate|]. cbn [put_uvarint] in E. destruct (N.ltb_spec n 128) as [H|H]; [injection E as <-; exact H|].
  destruct (put_uvarint f (N.shiftr n 7)) as [r|] eqn:Er; [|discriminate]. injection E as <-. apply IH in Er. cbn.
  pose proof (byte_high n). destruct r; [contradiction|]. split; [assumption|exact Er].
Qed.
Lemma frame_cut p w k : blen p < 2 ^ 64 -> write_framed p = Some w -> (k < length w)%nat -> f_out (read_framed (firstn k w)) = None.
Proof.
  intros Hp. unfold write_framed. destruct (header_roundtrip (blen p) (firstn (k - 0) []) Hp) as (h & E1 & _). rewrite E1. intros X Hk. injection X as <-.
  rewrite app_length in Hk. rewrite firstn_app. destruct (Nat.lt_ge_cases k (length h)) as [H|H].
  - replace (k - length h)%nat with 0%nat by lia. cbn [firstn]. rewrite app_nil_r. unfold read_framed. rewrite cut_header; [reflexivity|eapply put_header; eauto|assumption].
  - rewrite firstn_all2 by lia. destruct (header_roundtrip (blen p) (firstn (k - length h) p) Hp) as (h' & E1' & E2). rewrite E1 in E1'. injection E1' as <-.
    unfold read_framed. rewrite E2. destruct (max_message <? blen p); [reflexivity|].
    replace (blen (firstn (k - length h) p) <? blen p) with true; [reflexivity|]. symmetry. apply N.ltb_lt. unfold blen. rewrite firstn_length. unfold bytes in *. lia.
Qed.
