From Verif Require Import Minimums MinimumsSpec Hist DBHashProofs.

Lemma ble_trans a b c : ble a b = true -> ble b c = true -> ble a c = true.
Proof.
  rewrite !ble_total_lt. intros [->|H] [->|H']; auto. right. eapply blt_trans; eauto.
Qed.
Lemma ble_refl a : ble a a = true.
Proof. apply ble_total_lt; auto. Qed.

Lemma keys_kept_iff old new : keys_kept old new = true <-> forall k v, lookup k old = Some v -> exists v', lookup k new = Some v'.
Proof.
  induction old as [|[k0 v0] old IH]; cbn [keys_kept lookup]; [split; [discriminate|auto]|].
  rewrite andb_true_iff, IH. split.
  - intros [H1 H2] k v. destruct (beq_spec k k0) as [->|Hn]; [|apply H2].
    destruct (lookup k0 new); [eauto|discriminate].
  - intros H. split.
    + destruct (H k0 v0) as [v' ->]; [now rewrite beq_refl|reflexivity].
    + intros k v Hl. destruct (beq_spec k k0) as [->|Hn].
      * apply (H k0 v0). now rewrite beq_refl.
      * apply (H k v). destruct (beq_spec k k0); [contradiction|assumption].
Qed.
Lemma entries_ok_iff old new : entries_ok old new = Min_OK <->
  forall k v, In (k, v) new -> v <> [] /\ k <> [] /\ forall o, lookup k old = Some o -> meets v o.
Proof.
  induction new as [|[k v] new IH]; cbn [entries_ok In]; [split; auto; intros _ ? ? []|].
  unfold blen in *. destruct (N.of_nat (length v) =? 0) eqn:Ev.
  { split; [discriminate|]. intros H. destruct (H k v (or_introl eq_refl)) as [H1 _]. destruct v; [contradiction|cbn in Ev; lia]. }
  assert (v <> []) by (intros ->; discriminate).
  destruct (beq_spec k []) as [->|Hk].
  { split; [discriminate|]. intros H'. destruct (H' [] v (or_introl eq_refl)) as [_ [H1 _]]. contradiction. }
  destruct (lookup k old) as [o|] eqn:El.
  - destruct (blt v o) eqn:Eb.
    { split; [discriminate|]. intros H'. destruct (H' k v (or_introl eq_refl)) as [_ [_ H1]]. destruct (H1 o El) as [_ H2].
      rewrite ble_nblt, Eb in H2. discriminate. }
    destruct (N.of_nat (length o) =? N.of_nat (length v)) eqn:En; cbn [negb].
    2: { split; [discriminate|]. intros H'. destruct (H' k v (or_introl eq_refl)) as [_ [_ H1]]. destruct (H1 o El) as [H2 _]. lia. }
    rewrite IH. split.
    + intros H' k' v' [E|Hin]; [|auto]. injection E as <- <-. repeat split; auto; assert (o0 = o) by congruence; subst; [lia|].
      now rewrite ble_nblt, Eb.
    + intros H' k' v' Hin. apply H'. auto.
  - rewrite IH. split.
    + intros H' k' v' [E|Hin]; [|auto]. injection E as <- <-. repeat split; auto; congruence.
    + intros H' k' v' Hin. apply H'. auto.
Qed.
Lemma update_ok old new l : update_limits old new = (l, Min_OK) -> l = new /\
  (forall k o, lookup k old = Some o -> exists v, lookup k new = Some v /\ meets v o).
Proof.
  unfold update_limits. destruct (keys_kept old new) eqn:Ek; cbn [negb]; [|discriminate].
  destruct (entries_ok old new) eqn:Ee; intros E; try discriminate. injection E as <-. split; [reflexivity|].
  intros k o Hl. rewrite keys_kept_iff in Ek. destruct (Ek k o Hl) as [v Hv]. exists v. split; [assumption|].
  rewrite entries_ok_iff in Ee. apply (Ee k v); [|assumption]. now apply lookup_in.
Qed.
Lemma update_accepts old new : update_limits old new = (new, Min_OK) <->
  (forall k o, lookup k old = Some o -> exists v, lookup k new = Some v) /\
  (forall k v, In (k, v) new -> v <> [] /\ k <> [] /\ forall o, lookup k old = Some o -> meets v o).
Proof.
  rewrite <- keys_kept_iff, <- entries_ok_iff. unfold update_limits.
  destruct (keys_kept old new); cbn [negb]; [|split; [discriminate|intros [? ?]; discriminate]].
  destruct (entries_ok old new); split; try discriminate; auto; intros [? ?]; congruence.
Qed.
Lemma update_cases old new : snd (update_limits old new) = Min_OK \/ fst (update_limits old new) = old.
Proof. unfold update_limits. destruct (keys_kept old new); cbn; auto. destruct (entries_ok old new); auto. Qed.

(* tightening, as a relation between limits *)
Definition tighter (a b : limits) : Prop := forall k o, lookup k a = Some o -> exists v, lookup k b = Some v /\ meets v o.
Lemma meets_trans a b c : meets a b -> meets b c -> meets a c.
Proof. intros [H1 H2] [H3 H4]. split; [congruence|]. eapply ble_trans; eauto. Qed.
Lemma tighter_refl a : tighter a a.
Proof. intros k o H. exists o. repeat split; auto. apply ble_refl. Qed.
Lemma tighter_trans a b c : tighter a b -> tighter b c -> tighter a c.
Proof.
  intros H1 H2 k o Hk. destruct (H1 k o Hk) as [v [Hv Hm]]. destruct (H2 k v Hv) as [w [Hw Hm']]. exists w. eauto using meets_trans.
Qed.
Lemma update_tighter old new : tighter old (fst (update_limits old new)).
Proof.
  destruct (update_cases old new) as [H|H].
  - destruct (update_limits old new) as [l e] eqn:E. cbn in *. subst e. destruct (update_ok _ _ _ E) as [-> H]. exact H.
  - rewrite H. apply tighter_refl.
Qed.
Lemma after_tighter us : forall s, tighter s (fold_left (fun s u => fst (update_limits s u)) us s).
Proof.
  induction us as [|u us IH]; intros s; cbn; [apply tighter_refl|]. eapply tighter_trans; [apply update_tighter|apply IH].
Qed.

Lemma check_value_iff s k v : check_value s k v = Min_OK <-> forall l, lookup k s = Some l -> meets v l.
Proof.
  unfold check_value, blen. destruct (lookup k s) as [l|]; [|split; auto; discriminate].
  destruct (blt v l) eqn:Eb.
  { split; [discriminate|]. intros H. destruct (H l eq_refl) as [_ H1]. rewrite ble_nblt, Eb in H1. discriminate. }
  destruct (N.of_nat (length v) =? N.of_nat (length l)) eqn:En; cbn [negb].
  - split; [|reflexivity]. intros _ l' E. injection E as <-. split; [lia|]. now rewrite ble_nblt, Eb.
  - split; [discriminate|]. intros H. destruct (H l eq_refl) as [H1 _]. lia.
Qed.
Lemma check_values_iff s vs : check_values s vs = Min_OK <-> forall k v, In (k, v) vs -> forall l, lookup k s = Some l -> meets v l.
Proof.
  induction vs as [|[k v] vs IH]; cbn [check_values In]; [split; auto; intros _ ? ? []|].
  destruct (check_value s k v) eqn:E.
  { rewrite IH. rewrite check_value_iff in E. split; [|eauto]. intros H k' v' [Ek|Hin]; [injection Ek as <- <-; assumption|eauto]. }
  all: split; [discriminate|]; intros H; assert (check_value s k v = Min_OK) by (apply check_value_iff; eauto); congruence.
Qed.
Lemma check_tighter a b vs : tighter a b -> check_values b vs = Min_OK -> check_values a vs = Min_OK.
Proof.
  rewrite !check_values_iff. intros Ht H k v Hin l Hl. destruct (Ht k l Hl) as [w [Hw Hm]]. eauto using meets_trans.
Qed.

(* --- numbers -------------------------------------------------------------- *)
(* a base-256 number of n digits, most significant first *)
Fixpoint digits (n : nat) (v : N) : bytes := match n with O => [] | S n' => v / 256 ^ N.of_nat n' mod 256 :: digits n' v end.
Lemma pow_pos n : 0 < 256 ^ n. Proof. apply N.neq_0_lt_0, N.pow_nonzero. discriminate. Qed.
Lemma digits_mod n : forall v k, (n <= k)%nat -> digits n (v mod 256 ^ N.of_nat k) = digits n v.
Proof.
  induction n as [|n IH]; intros v k Hk; [reflexivity|]. cbn [digits]. rewrite IH by lia. f_equal.
  pose proof (pow_pos (N.of_nat n)) as Hp.
  replace (N.of_nat k) with (N.of_nat n + (N.of_nat (k - n - 1) + 1)) by lia.
  rewrite N.pow_add_r. rewrite N.mod_mul_r by (try apply N.neq_0_lt_0; try apply pow_pos; lia).
  rewrite (N.mul_comm (256 ^ N.of_nat n)), N.div_add by lia. rewrite N.div_small, N.add_0_l by (apply N.mod_lt; lia).
  rewrite N.pow_add_r, N.pow_1_r, (N.mul_comm _ 256).
  rewrite N.mod_mul_r by (try discriminate; apply N.neq_0_lt_0, pow_pos).
  rewrite (N.mul_comm 256), N.add_comm, N.add_comm, N.mod_add by discriminate. now rewrite N.mod_mod by discriminate.
Qed.
Lemma digits_cmp n : forall a b, a < 256 ^ N.of_nat n -> b < 256 ^ N.of_nat n -> bcmp (digits n a) (digits n b) = (a ?= b).
Proof.
  induction n as [|n IH]; intros a b Ha Hb.
  - cbn in *. assert (a = 0) by lia. assert (b = 0) by lia. subst. reflexivity.
  - cbn [digits bcmp]. rewrite Nat2N.inj_succ, N.pow_succ_r' in Ha, Hb. set (M := 256 ^ N.of_nat n) in *.
    assert (HM : 0 < M) by apply pow_pos.
    assert (Hda : a / M < 256) by (apply N.div_lt_upper_bound; lia). assert (Hdb : b / M < 256) by (apply N.div_lt_upper_bound; lia).
    rewrite !(N.mod_small _ 256) by assumption.
    rewrite <- (digits_mod n a n), <- (digits_mod n b n) by lia. fold M.
    rewrite IH by (apply N.mod_lt; lia).
    pose proof (N.div_mod a M ltac:(lia)) as Ea. pose proof (N.div_mod b M ltac:(lia)) as Eb.
    pose proof (N.mod_lt a M ltac:(lia)). pose proof (N.mod_lt b M ltac:(lia)).
    symmetry. destruct (N.compare_spec (a / M) (b / M)) as [Hq|Hq|Hq].
    + rewrite Ea, Eb at 1. rewrite Hq. destruct (N.compare_spec (a mod M) (b mod M)) as [Hr|Hr|Hr].
      * rewrite Hr. apply N.compare_refl. * apply N.compare_lt_iff. lia. * apply N.compare_gt_iff. lia.
    + apply N.compare_lt_iff. rewrite Ea, Eb. assert (M * (a / M) + M <= M * (b / M)) by nia. lia.
    + apply N.compare_gt_iff. rewrite Ea, Eb. assert (M * (b / M) + M <= M * (a / M)) by nia. lia.
Qed.
Lemma be64_digits v : be64 v = digits 8 v.
Proof.
  unfold be64, byte_at. cbn [digits]. rewrite !N.shiftr_div_pow2. reflexivity.
Qed.
Lemma be64_ble a b : a < 2 ^ 64 -> b < 2 ^ 64 -> (ble (be64 a) (be64 b) = true <-> a <= b).
Proof.
  intros Ha Hb. unfold ble. rewrite !be64_digits, digits_cmp by assumption.
  destruct (N.compare_spec a b); split; try lia; try discriminate; auto.
Qed.

(* --- updates in flight ---------------------------------------------------- *)
Definition settled (s : mcore) : Prop :=
  match mc_log s with [] => True | [u] => snd (update_limits (mc_limits s) u) = Min_OK | _ => False end.
Lemma one_cons o h : one_at_a_time (o :: h) -> one_at_a_time h.
Proof. intros H h1 u1 mid u2 h2 E. apply (H (o :: h1) u1 mid u2 h2). cbn. now rewrite E. Qed.
Lemma one_at_a_time_runs h : forall s, settled s ->
  one_at_a_time h -> (mc_log s = [] \/ forall a u b, h = a ++ MRequest u :: b -> In MCommit a) ->
  exists s' rs, exec mstep s h = Ret (s', rs).
Proof.
  induction h as [|o h IH]; intros s Hs H1 Hq; [cbn; eauto|].
  pose proof (one_cons _ _ H1) as H1'. cbn [exec]. destruct o as [u|]; cbn [mstep].
  - destruct Hq as [Hq|Hq]; [|destruct (Hq [] u h eq_refl)]. unfold request_update.
    destruct (update_limits (mc_limits s) u) as [l e] eqn:Eu.
    assert (Hnext : forall a v b, h = a ++ MRequest v :: b -> In MCommit a).
    { intros a v b ->. apply (H1 [] u a v b). reflexivity. }
    destruct (is_ok e && _)%bool eqn:Ea.
    + destruct (IH (MCore (mc_limits s) (mc_log s ++ [u]) (mc_peers s))) as [s' [rs E]]; auto.
      * unfold settled. cbn. rewrite Hq. cbn. rewrite Eu. cbn. apply andb_true_iff in Ea as [Ea _]. destruct e; try discriminate. reflexivity.
      * rewrite E. eauto.
    + destruct (IH s Hs H1' (or_introl Hq)) as [s' [rs E]]. rewrite E. eauto.
  - unfold commit_update. unfold settled in Hs. destruct (mc_log s) as [|u [|? ?]] eqn:El; [| |contradiction].
    + destruct (IH s) as [s' [rs E]]; auto; [unfold settled; now rewrite El|]. rewrite E. eauto.
    + destruct (update_limits (mc_limits s) u) as [l e] eqn:Eu. cbn in Hs. subst e. cbn [is_ok].
      destruct (IH (MCore l [] (filter (fun p => is_ok (check_values l p)) (mc_peers s)))) as [s' [rs E]]; auto; [exact I|]. rewrite E. eauto.
Qed.
