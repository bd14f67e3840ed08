From Verif Require Import Membership MembershipSpec.

Lemma pmem_In p s : pmem p s = true <-> In p s.
Proof.
  unfold pmem; rewrite existsb_exists; split.
  - intros [x [H E]]; apply beq_eq in E; now subst.
  - intros H; exists p; split; [assumption|apply beq_refl].
Qed.
Lemma pmem_nIn p s : pmem p s = false <-> ~ In p s.
Proof. rewrite <- pmem_In; destruct (pmem p s); split; congruence. Qed.

(* --- quorums ------------------------------------------------------------ *)

Lemma quorum_size_val n sm : sm < n -> n < 2 ^ 63 ->
  quorum_size n sm = (n - sm) / 2 + 1 + sm /\ quorum_size n sm <= n.
Proof.
  intros H1 H2. unfold quorum_size.
  assert (E : (n + 2 ^ 64 - sm) mod 2 ^ 64 = n - sm).
  { replace (n + 2 ^ 64 - sm) with (n - sm + 1 * 2 ^ 64) by lia. rewrite N.mod_add by lia. apply N.mod_small. lia. }
  rewrite E. set (k := n - sm). assert (Hk : k / 2 <= k - 1).
  { assert (0 < k) by lia. zify; lia. }
  rewrite (N.mod_small (k / 2 + 1 + sm)) by lia.
  rewrite N.min_r by lia. lia.
Qed.

Lemma quorum_small n sm : n <= sm -> sm < 2 ^ 63 -> quorum_size n sm = n.
Proof.
  intros H1 H2. unfold quorum_size. destruct (N.eq_dec n sm) as [->|Hne].
  - replace (sm + 2 ^ 64 - sm) with (2 ^ 64) by lia. rewrite N.mod_same by lia.
    change (0 / 2) with 0. rewrite N.mod_small by lia. lia.
  - rewrite (N.mod_small (n + 2 ^ 64 - sm)) by lia.
    assert (Hq : 2 ^ 64 = 2 * 2 ^ 63) by reflexivity.
    assert (Hd : (n + 2 ^ 64 - sm) / 2 + sm + 1 >= n).
    { zify; lia. }
    destruct (N.lt_ge_cases ((n + 2 ^ 64 - sm) / 2 + 1 + sm) (2 ^ 64)) as [Hlt|Hge].
    + rewrite N.mod_small by lia. lia.
    + exfalso. assert ((n + 2 ^ 64 - sm) / 2 < 2 ^ 63) by (zify; lia).
      assert ((n + 2 ^ 64 - sm) / 2 + 1 + sm <= 2 ^ 64 - 1); [|lia].
      zify; lia.
Qed.

Lemma filter_split {A} (f : A -> bool) l :
  (length (filter f l) + length (filter (fun x => negb (f x)) l) = length l)%nat.
Proof. induction l as [|x l IH]; cbn; [reflexivity|]. destruct (f x); cbn; lia. Qed.

Lemma NoDup_app_mk {A} (a b : list A) : NoDup a -> NoDup b -> (forall x, In x a -> In x b -> False) -> NoDup (a ++ b).
Proof.
  induction a as [|x a IH]; cbn; intros Ha Hb H; [assumption|]. inversion Ha as [|? ? H1 H2]; subst.
  constructor; [|apply IH; auto; intros y Hy; apply H; now right].
  rewrite in_app_iff; intros [H3|H3]; [auto|]. apply (H x); auto.
Qed.

Lemma overlap (v q1 q2 : pset) : NoDup q1 -> NoDup q2 -> incl q1 v -> incl q2 v ->
  (length q1 + length q2 <= length v + length (common q1 q2))%nat.
Proof.
  intros N1 N2 I1 I2.
  assert (H : (length (q2 ++ filter (fun p => negb (pmem p q2)) q1) <= length v)%nat).
  { apply NoDup_incl_length.
    - apply NoDup_app_mk; auto.
      + now apply NoDup_filter.
      + intros x H H2. apply filter_In in H2 as [_ H2]. apply pmem_In in H. now rewrite H in H2.
    - apply incl_app; [assumption|]. intros x H; apply filter_In in H as [H _]; auto. }
  rewrite app_length in H. pose proof (filter_split (fun p => pmem p q2) q1) as Hs. unfold common. lia.
Qed.

Lemma quorum_overlap v sm q1 q2 : sm < psize v -> psize v < 2 ^ 63 ->
  is_quorum v sm q1 -> is_quorum v sm q2 -> sm < psize (common q1 q2).
Proof.
  intros Hs Hn [N1 [I1 S1]] [N2 [I2 S2]].
  pose proof (overlap v q1 q2 N1 N2 I1 I2) as H.
  destruct (quorum_size_val (psize v) sm Hs Hn) as [E _].
  rewrite E in S1, S2. unfold psize in *.
  set (n := N.of_nat (length v)) in *. assert (2 * ((n - sm) / 2) >= n - sm - 1) by (zify; lia). lia.
Qed.

Lemma quorum_overlap_step v p sm q1 q2 : sm < psize v -> psize v + 1 < 2 ^ 63 -> ~ In p v ->
  is_quorum v sm q1 -> is_quorum (p :: v) sm q2 -> sm < psize (common q1 q2).
Proof.
  intros Hs Hn Hp [N1 [I1 S1]] [N2 [I2 S2]].
  assert (I1' : incl q1 (p :: v)) by (intros x Hx; right; auto).
  pose proof (overlap (p :: v) q1 q2 N1 N2 I1' I2) as H.
  assert (Hc : psize (p :: v) = psize v + 1) by (unfold psize; cbn [length]; lia).
  destruct (quorum_size_val (psize v) sm Hs ltac:(lia)) as [E1 _].
  destruct (quorum_size_val (psize (p :: v)) sm ltac:(lia) ltac:(lia)) as [E2 _].
  rewrite E1 in S1. rewrite E2, Hc in S2. unfold psize in *. cbn [length] in H.
  set (n := N.of_nat (length v)) in *.
  assert ((n - sm) / 2 + (n + 1 - sm) / 2 >= n - sm) by (zify; lia). lia.
Qed.

(* --- sets ---------------------------------------------------------------- *)

Lemma ssorted_NoDup s : ssorted s -> NoDup s.
Proof.
  induction s as [|p s IH]; cbn; intros H; constructor.
  - intros Hin; destruct H as [H _]; specialize (H p Hin); rewrite blt_irrefl in H; discriminate.
  - apply IH, H.
Qed.
Lemma bcmp_gt_lt a b : bcmp a b = Gt <-> blt b a = true.
Proof. rewrite blt_lt, (bcmp_antisym a b); destruct (bcmp a b); cbn; split; congruence. Qed.

Lemma pins_In p q s : In q (pins p s) <-> q = p \/ In q s.
Proof.
  induction s as [|x s IH]; cbn [pins].
  - cbn; intuition.
  - destruct (bcmp p x) eqn:E; cbn [In].
    + apply bcmp_eq in E; subst; intuition.
    + intuition.
    + rewrite IH; intuition.
Qed.
Lemma pins_sorted p s : ssorted s -> ssorted (pins p s).
Proof.
  induction s as [|x s IH]; cbn [pins].
  - cbn; intuition.
  - intros [H1 H2]. destruct (bcmp p x) eqn:E; cbn [ssorted].
    + auto.
    + apply blt_lt in E. split; [|auto].
      intros q [<-|Hq]; [assumption|]. eapply blt_trans; eauto.
    + apply bcmp_gt_lt in E. split; [|auto].
      intros q Hq; apply pins_In in Hq as [->|Hq]; auto.
Qed.

Lemma set_diff_nil_l b : set_diff [] b = [].
Proof. now destruct b. Qed.
Lemma set_diff_nil_r a : set_diff a [] = a.
Proof. now destruct a. Qed.
Lemma set_diff_cons x a y b : set_diff (x :: a) (y :: b) =
  match bcmp x y with Lt => x :: set_diff a (y :: b) | Gt => set_diff (x :: a) b | Eq => set_diff a b end.
Proof. reflexivity. Qed.

Lemma set_diff_In a b : ssorted a -> ssorted b -> forall x, In x (set_diff a b) <-> In x a /\ ~ In x b.
Proof.
  revert b; induction a as [|x a IHa]; intros b Ha Hb q.
  - rewrite set_diff_nil_l; cbn; tauto.
  - destruct Ha as [Ha1 Ha2].
    induction b as [|y b IHb].
    + rewrite set_diff_nil_r; cbn; tauto.
    + destruct Hb as [Hb1 Hb2]. rewrite set_diff_cons. destruct (bcmp x y) eqn:E.
      * apply bcmp_eq in E; subst y. rewrite (IHa b) by assumption. cbn [In].
        split; [|intuition; subst; tauto]. intros [H1 H2]; split; [auto|].
        intros [->|H3]; [|tauto]. specialize (Ha1 q H1); rewrite blt_irrefl in Ha1; discriminate.
      * apply blt_lt in E. cbn [In]. rewrite (IHa (y :: b)); [|assumption|split; assumption]. cbn [In].
        split; [|tauto]. intros [->|H]; [|tauto]. split; [auto|].
        intros [->|H]; [rewrite blt_irrefl in E; discriminate|].
        specialize (Hb1 q H). pose proof (blt_trans _ _ _ E Hb1) as Hc; rewrite blt_irrefl in Hc; discriminate.
      * apply bcmp_gt_lt in E. rewrite IHb by assumption. cbn [In].
        split; [|tauto]. intros [H1 H2]; split; [auto|]. intros [->|H3]; [|tauto].
        destruct H1 as [->|H1]; [rewrite blt_irrefl in E; discriminate|].
        specialize (Ha1 q H1). pose proof (blt_trans _ _ _ E Ha1) as Hc; rewrite blt_irrefl in Hc; discriminate.
Qed.
Lemma set_diff_NoDup a b : ssorted a -> ssorted b -> NoDup (set_diff a b).
Proof.
  revert b; induction a as [|x a IHa]; intros b Ha Hb.
  - rewrite set_diff_nil_l; constructor.
  - destruct Ha as [Ha1 Ha2]. induction b as [|y b IHb].
    + rewrite set_diff_nil_r. apply ssorted_NoDup; split; assumption.
    + destruct Hb as [Hb1 Hb2]. rewrite set_diff_cons. destruct (bcmp x y).
      * now apply IHa.
      * constructor; [|apply IHa; [assumption|split; assumption]].
        rewrite set_diff_In by (try assumption; split; assumption). intros [H _].
        specialize (Ha1 x H); rewrite blt_irrefl in Ha1; discriminate.
      * now apply IHb.
Qed.

Lemma diff_zero a b : ssorted a -> ssorted b -> psize (set_diff a b) = 0 -> incl a b.
Proof.
  intros Ha Hb H x Hx. destruct (set_diff a b) as [|z l] eqn:E; [|unfold psize in H; cbn [length] in H; lia].
  destruct (pmem x b) eqn:Ex; [now apply pmem_In|]. apply pmem_nIn in Ex.
  assert (Hd : In x (set_diff a b)) by (apply set_diff_In; auto). rewrite E in Hd; destruct Hd.
Qed.
Lemma diff_one a b : ssorted a -> ssorted b -> psize (set_diff a b) = 1 ->
  exists p, set_diff a b = [p] /\ In p a /\ ~ In p b /\ forall q, q <> p -> In q a -> In q b.
Proof.
  intros Ha Hb H. destruct (set_diff a b) as [|p [|z l]] eqn:E; try (unfold psize in H; cbn [length] in H; lia).
  exists p. assert (Hp : In p (set_diff a b)) by (rewrite E; now left).
  apply set_diff_In in Hp as [H1 H2]; auto. repeat split; auto.
  intros q Hq Hqa. destruct (pmem q b) eqn:Ex; [now apply pmem_In|]. apply pmem_nIn in Ex.
  assert (Hd : In q (set_diff a b)) by (apply set_diff_In; auto). rewrite E in Hd; destruct Hd as [->|[]]. congruence.
Qed.

Lemma from_proto_aux_wf g out : wf_members out -> wf_members (fst (from_proto_aux g out)).
Proof.
  revert out; induction g as [|r g IH]; intros out H; cbn [from_proto_aux]; [assumption|].
  destruct (negb _); [assumption|]. destruct (pmem _ _); [assumption|].
  apply IH. destruct H as [H1 [H2 H3]]. split; [|split]; cbn [m_all m_voting].
  - now apply pins_sorted.
  - destruct (rp_voting r); [now apply pins_sorted|assumption].
  - intros x Hx. apply pins_In. destruct (rp_voting r); [apply pins_In in Hx as [->|Hx]|]; auto.
Qed.
Lemma from_proto_wf g m e : from_proto g = (m, e) -> wf_members m.
Proof.
  intros E. assert (H : wf_members (fst (from_proto g))); [|now rewrite E in H].
  apply from_proto_aux_wf. repeat split; cbn; auto. intros x [].
Qed.

Lemma role_same from to q : (In q (m_all to) <-> In q (m_all from)) -> (In q (m_voting to) <-> In q (m_voting from)) ->
  role_in to q = role_in from q.
Proof.
  intros H1 H2. unfold role_in.
  assert (E1 : pmem q (m_voting to) = pmem q (m_voting from)).
  { destruct (pmem q (m_voting from)) eqn:E; [apply pmem_In, H2, pmem_In, E|].
    apply pmem_nIn; apply pmem_nIn in E; tauto. }
  assert (E2 : pmem q (m_all to) = pmem q (m_all from)).
  { destruct (pmem q (m_all from)) eqn:E; [apply pmem_In, H1, pmem_In, E|].
    apply pmem_nIn; apply pmem_nIn in E; tauto. }
  now rewrite E1, E2.
Qed.

Lemma role_is m p : (role_in m p = Voter <-> In p (m_voting m)) /\
  (role_in m p = Silent <-> In p (m_all m) /\ ~ In p (m_voting m)) /\
  (role_in m p = Outside <-> ~ In p (m_all m) /\ ~ In p (m_voting m)).
Proof.
  unfold role_in. destruct (pmem p (m_voting m)) eqn:E1; [apply pmem_In in E1|apply pmem_nIn in E1];
  destruct (pmem p (m_all m)) eqn:E2; [apply pmem_In in E2|apply pmem_nIn in E2|apply pmem_In in E2|apply pmem_nIn in E2];
  intuition discriminate.
Qed.

Lemma valid_progression_safe leader from to sm : wf_members from -> wf_members to ->
  psize (m_all to) < 2 ^ 63 ->
  valid_progression leader from to sm = M_OK -> safe_step leader sm from to.
Proof.
  intros [Fa [Fv Fi]] [Ta [Tv Ti]] Hsz E. unfold valid_progression in E.
  destruct (_ && _)%bool eqn:E0 in E; [discriminate|].
  destruct (_ || _)%bool eqn:E1 in E; [discriminate|].
  set (vadd := set_diff_size (m_voting to) (m_voting from)) in *.
  set (vrem := set_diff (m_voting from) (m_voting to)) in *.
  set (aadd := set_diff_size (m_all to) (m_all from)) in *.
  set (arem := set_diff (m_all from) (m_all to)) in *.
  destruct (negb _ && _)%bool eqn:E2 in E; [discriminate|].
  destruct (_ =? 0) eqn:E3 in E; [discriminate|].
  destruct (negb (pmem leader (m_voting to))) eqn:E4; [discriminate|].
  destruct (negb (pmem leader (m_all to))) eqn:E5; [discriminate|].
  clear E. apply negb_false_iff, pmem_In in E4. apply negb_false_iff, pmem_In in E5.
  unfold safe_step. split; [|split; [|split; [|split]]].
  2:{ intros Hn; rewrite Hn in E4; destruct E4. }
  2:{ now apply (proj1 (role_is to leader)). }
  2:{ assumption. }
  2:{ intros H. destruct (sm <? psize (m_voting to)) eqn:Es; [lia|]. lia. }
  assert (Hcases : (psize vrem = 1 /\ psize arem = 1 /\ vadd = 0 /\ aadd = 0 /\
                    match vrem, arem with v :: _, a :: _ => beq v a | _, _ => false end = true) \/
                   (vadd + psize vrem + aadd + psize arem = 1)).
  { destruct ((vadd + psize vrem + aadd + psize arem =? 2) && (psize vrem =? 1) && (psize arem =? 1)
               && match vrem, arem with v :: _, a :: _ => beq v a | _, _ => false end)%bool eqn:Ec; cbn [negb andb] in E2.
    - left. apply andb_true_iff in Ec as [Ec Eb]. repeat split; auto; lia.
    - right. lia. }
  clear E0 E1 E2 E3.
  destruct Hcases as [(Hv & Ha & Hva & Haa & Hb)|Hsum].
  - destruct (diff_one _ _ Fv Tv Hv) as [p [Ep [Hp1 [Hp2 Hp3]]]].
    destruct (diff_one _ _ Fa Ta Ha) as [p' [Ep' [Hp1' [Hp2' Hp3']]]].
    unfold vrem, arem in Hb. rewrite Ep, Ep' in Hb. apply beq_eq in Hb; subst p'.
    pose proof (diff_zero _ _ Tv Fv Hva) as Iv. pose proof (diff_zero _ _ Ta Fa Haa) as Ia.
    exists p. split.
    + intros q Hq. apply role_same; split; auto.
    + rewrite (proj2 (proj1 (role_is from p)) Hp1), (proj2 (proj2 (proj2 (role_is to p)))); auto.
  - assert (Hone : (vadd = 1 /\ psize vrem = 0 /\ aadd = 0 /\ psize arem = 0) \/
                   (vadd = 0 /\ psize vrem = 1 /\ aadd = 0 /\ psize arem = 0) \/
                   (vadd = 0 /\ psize vrem = 0 /\ aadd = 1 /\ psize arem = 0) \/
                   (vadd = 0 /\ psize vrem = 0 /\ aadd = 0 /\ psize arem = 1)) by lia.
    destruct Hone as [(H1 & H2 & H3 & H4)|[(H1 & H2 & H3 & H4)|[(H1 & H2 & H3 & H4)|(H1 & H2 & H3 & H4)]]].
    + (* promoted *)
      destruct (diff_one _ _ Tv Fv H1) as [p [_ [Hp1 [Hp2 Hp3]]]].
      pose proof (diff_zero _ _ Fv Tv H2) as I2. pose proof (diff_zero _ _ Ta Fa H3) as I3. pose proof (diff_zero _ _ Fa Ta H4) as I4.
      exists p; split; [intros q Hq; apply role_same; split; auto|].
      rewrite (proj2 (proj1 (role_is to p)) Hp1), (proj2 (proj1 (proj2 (role_is from p)))); auto.
    + (* demoted *)
      destruct (diff_one _ _ Fv Tv H2) as [p [_ [Hp1 [Hp2 Hp3]]]].
      pose proof (diff_zero _ _ Tv Fv H1) as I1. pose proof (diff_zero _ _ Ta Fa H3) as I3. pose proof (diff_zero _ _ Fa Ta H4) as I4.
      exists p; split; [intros q Hq; apply role_same; split; auto|].
      rewrite (proj2 (proj1 (role_is from p)) Hp1), (proj2 (proj1 (proj2 (role_is to p)))); auto.
    + (* added *)
      destruct (diff_one _ _ Ta Fa H3) as [p [_ [Hp1 [Hp2 Hp3]]]].
      pose proof (diff_zero _ _ Tv Fv H1) as I1. pose proof (diff_zero _ _ Fv Tv H2) as I2. pose proof (diff_zero _ _ Fa Ta H4) as I4.
      assert (Hnv : ~ In p (m_voting from)) by auto.
      exists p; split; [intros q Hq; apply role_same; split; auto|].
      rewrite (proj2 (proj2 (proj2 (role_is from p)))), (proj2 (proj1 (proj2 (role_is to p)))); auto.
    + (* removed *)
      destruct (diff_one _ _ Fa Ta H4) as [p [_ [Hp1 [Hp2 Hp3]]]].
      pose proof (diff_zero _ _ Tv Fv H1) as I1. pose proof (diff_zero _ _ Fv Tv H2) as I2. pose proof (diff_zero _ _ Ta Fa H3) as I3.
      assert (Hnv : ~ In p (m_voting to)) by auto.
      exists p; split; [intros q Hq; apply role_same; split; auto|].
      rewrite (proj2 (proj1 (proj2 (role_is from p)))), (proj2 (proj2 (proj2 (role_is to p)))); auto.
Qed.
