(* What a leader has in its log: proofs, for groups that start with nothing. *)
From Verif Require Import RaftLog Raft RaftSpec RaftChain RaftLogProofs RaftNode RaftRun RaftShape RaftVotes RaftNet RaftNetSpec RaftNetProofs RaftMoveSpec RaftMoveProofs
  RaftFreshProofs MembershipSpec MembershipProofs UtilProofs.

Lemma nth_prefix (A A' : list entry) : llen A <= llen A' ->
  (forall j e, j <= llen A -> nth_entry A' j = Some e -> nth_entry A j = Some e) -> prefix A A'.
Proof.
  intros Hl H. exists (skipn (length A) A'). rewrite <- (firstn_skipn (length A) A') at 1. f_equal.
  assert (Hn : forall i e, (i < length A)%nat -> nth_error A' i = Some e -> nth_error A i = Some e).
  { intros i e Hi He. specialize (H (N.of_nat i + 1) e). unfold nth_entry, llen in H. destruct (N.of_nat i + 1 =? 0) eqn:E; [lia|].
    replace (N.to_nat (N.of_nat i + 1 - 1)) with i in H by lia. apply H; [lia|assumption]. }
  assert (Hl' : (length A <= length A')%nat) by (unfold llen in Hl; lia). clear H Hl. revert A' Hn Hl'.
  induction A as [|a A IH]; intros A' Hn Hl; [reflexivity|]. destruct A' as [|b A']; [cbn in Hl; lia|]. cbn [length firstn]. f_equal.
  - specialize (Hn 0%nat b ltac:(cbn; lia) eq_refl). cbn in Hn. congruence.
  - apply IH; [|cbn in Hl; lia]. intros i e Hi He. apply (Hn (S i) e); [cbn; lia|exact He].
Qed.
(* the term of the last entry *)
Definition tlast (A : list entry) : N := match nth_entry A (llen A) with Some e => e_term e | None => 0 end.
(* the log A has what the request names *)
Definition req_in (li lt : N) (A : list entry) : Prop := (li = 0 /\ lt = 0) \/ exists e, nth_entry A li = Some e /\ e_term e = lt.
Lemma req_in_mono li lt A A' : prefix A A' -> req_in li lt A -> req_in li lt A'.
Proof. intros Hp [H|(e & H1 & H2)]; [now left|right]. exists e. split; [eapply prefix_nth; eassumption|assumption]. Qed.
Lemma req_in_last A : req_in (llen A) (tlast A) A.
Proof.
  unfold req_in, tlast. destruct (nth_entry A (llen A)) as [e|] eqn:E; [right; eauto|left]. split; [|reflexivity].
  destruct (N.eq_dec (llen A) 0) as [|Hd]; [assumption|]. destruct (nth_entry_some A (llen A)) as [e He]; [lia|lia|congruence].
Qed.

Section Complete.
Variable sz : sizes.
Variable hmac : bytes -> bytes -> bytes.
Variable M : members.
Variable sm : N.
Variable Fm : members -> Prop.
Hypothesis HFM : Fm M.
Hypothesis Hwf : forall m, Fm m -> wf_members m.
Hypothesis Hov : overlapping sm Fm.
Variable okx : inner -> Prop.
Notation ginv := (ginv hmac sm [] Fm okx).
Notation fresh := (fresh []).

Lemma last_term_of P k n A : rip hmac sm [] Fm okx P k n A -> last_term (n_log n) = tlast A.
Proof.
  intros HR. pose proof (RI_last _ _ _ _ _ _ _ _ _ _ _ HR) as Hl. unfold last_term.
  pose proof (RI_lw _ _ _ _ _ _ _ _ _ _ _ HR) as Hlw. pose proof (lw_next n Hlw) as Hn. unfold nxt in Hn. destruct Hlw as (W1 & _).
  destruct (l_entries (n_log n)) as [|x es] eqn:El.
  - unfold tlast. unfold last_idx in Hl. rewrite El in Hl. unfold nth_entry. rewrite <- Hl. reflexivity.
  - rewrite Hl. unfold term_at.
    assert (Ha : exists e, at_idx (n_log n) (llen A) = Some e).
    { rewrite Hl in Hn. unfold at_idx. rewrite El. unfold llen in Hn at 2. cbn [length] in Hn. destruct (llen A <? l_oldest (n_log n)) eqn:E; [lia|].
      destruct (nth_error (x :: es) (N.to_nat (llen A - l_oldest (n_log n)))) as [e|] eqn:En; [eauto|]. apply nth_error_None in En. cbn [length] in En. lia. }
    destruct Ha as [e He]. rewrite He. apply (st_at_some _ _ _ _ _ (ri_st _ _ _ _ _ _ _ _ _ _ _ HR)) in He. unfold tlast. now rewrite He.
Qed.

Record full (s : net) : Prop := MkFull {
  fu_le : forall k n A j e, In (k, (n, A)) (w_past s) -> nth_entry A j = Some e -> e_term e <= n_term n;
  fu_mono : forall k n A i j ei ej, In (k, (n, A)) (w_past s) -> i <= j -> nth_entry A i = Some ei -> nth_entry A j = Some ej -> e_term ei <= e_term ej;
  fu_led : forall k n A j e, In (k, (n, A)) (w_past s) -> nth_entry A j = Some e ->
    exists k0 n0 A0, In (k0, (n0, A0)) (w_past s) /\ is_leader n0 = true /\ n_term n0 = e_term e /\
      ((j <= llen A0 /\ upto j A0 = upto j A) \/ (prefix A0 A /\ llen A0 < j));
  fu_cont : forall k1 n1 A1 k2 n2 A2 i j e1 e2, In (k1, (n1, A1)) (w_past s) -> In (k2, (n2, A2)) (w_past s) -> i <= j ->
    nth_entry A1 i = Some e1 -> nth_entry A2 j = Some e2 -> e_term e1 = e_term e2 -> nth_entry A2 i = Some e1;
  fu_cand : forall k n A j e, In (k, (n, A)) (w_past s) -> cand n = true -> nth_entry A j = Some e -> e_term e < n_term n;
  fu_reqn : forall k n A to m li lt h, ~ In k (w_rolled s) -> lookup k (w_now s) = Some (n, A) -> cand n = true \/ is_leader n = true ->
    In (k, (to, m)) (w_soup s) -> m_body m = VoteReq li lt h -> m_term m = n_term n -> req_in li lt A /\ (li <> 0 -> lt < m_term m);
  fu_reqp : forall k n A to m li lt h, ~ In k (w_rolled s) -> In (k, (n, A)) (w_past s) -> is_leader n = true ->
    In (k, (to, m)) (w_soup s) -> m_body m = VoteReq li lt h -> m_term m = n_term n -> req_in li lt A /\ (li <> 0 -> lt < m_term m);
  fu_vote : forall v n A c, In (v, (n, A)) (w_past s) -> n_voted n = Some c -> c = v \/
    exists to m li lt h n0 B0, In (c, (to, m)) (w_soup s) /\ m_body m = VoteReq li lt h /\ m_term m = n_term n /\
      In (v, (n0, B0)) (w_past s) /\ n_term n0 = n_term n /\ up_to_date (n_log n0) li lt
}.

Lemma act_full k o s : ginv s -> ginv (act sz hmac k o s) -> psize (w_rolled s) <= sm -> unclashed (w_past (act sz hmac k o s)) ->
  fresh s -> fresh (act sz hmac k o s) -> full s ->
  (forall ok1 ok2 rnd from m, o = OReceive ok1 ok2 rnd from m -> exists to, In (from, (to, m)) (w_soup s)) ->
  full (act sz hmac k o s).
Proof.
  intros HI HI' Hro Hun HF HF' HU Hmsg. unfold act in *. destruct (lookup k (w_now s)) as [[n A]|] eqn:El; [|assumption].
  destruct (rstep sz hmac n o) as [[n' a]|] eqn:Er; [|assumption]. cbv zeta in *.
  pose proof (gi_now _ _ _ _ _ s HI k n A El) as Hin. destruct (gi_past _ _ _ _ _ s HI k n A Hin) as [HR Ho].
  set (A' := regrow A (n_log n')) in *. set (s' := Net _ _ _ _ _) in *.
  assert (Hnew : In (k, (n', A')) (w_past s')) by (unfold s'; cbn; apply in_or_app; right; now left).
  assert (Hincl : forall x, In x (w_past s) -> In x (w_past s')) by (intros x Hx; unfold s'; cbn; apply in_or_app; now left).
  assert (Hsoup : forall x, In x (w_soup s) -> In x (w_soup s')) by (intros x Hx; unfold s'; cbn; apply in_or_app; now left).
  assert (Hsoup' : forall k1 to m, In (k1, (to, m)) (w_soup s') -> In (k1, (to, m)) (w_soup s) \/ (k1 = k /\ In (to, m) (a_sent a))).
  { intros k1 to m Hx. unfold s' in Hx; cbn in Hx. apply in_app_or in Hx as [Hx|Hx]; [auto|right]. apply in_map_iff in Hx as ([to' m'] & E & Hx).
    injection E as <- <- <-. auto. }
  assert (Hroll : w_rolled s' = w_rolled s) by reflexivity.
  destruct (gi_past _ _ _ _ _ s' HI' k n' A' Hnew) as [HR' _].
  pose proof (RI_lw _ _ _ _ _ _ _ _ _ _ _ HR) as Hlw. pose proof (RI_lw _ _ _ _ _ _ _ _ _ _ _ HR') as Hlw'.
  destruct (rstep_shape sz hmac n o n' a Hlw Er) as [S1 S2 S3 S4 S5 S6 S7 S8].
  assert (Hself : is_leader n = true \/ cand n = true -> n_voted n = Some (n_me n)).
  { pose proof (ri_ro _ _ _ _ _ _ _ _ _ _ _ HR) as Hq. unfold is_leader, cand, role_ok in *. destruct (n_role n) as [| |fs hb rel]; [intros [X|X]; discriminate|intros _|intros _].
    - apply Hq.
    - apply Hq. }
  destruct (rstep_votes sz hmac n o n' a Ho Hself Er) as [V1 V2 V3].
  destruct (ri_id _ _ _ _ _ _ _ _ _ _ _ HR) as [Hid _].
  assert (Hold : forall x, In x (w_past s') -> In x (w_past s) \/ x = (k, (n', A'))).
  { intros x Hx. unfold s' in Hx; cbn in Hx. apply in_app_or in Hx as [Hx|[Hx|[]]]; auto. }
  assert (Hne : forall k1, k1 <> k -> lookup k1 (w_now s') = lookup k1 (w_now s)) by (intros k1 Hd; unfold s'; cbn; now rewrite lookup_put_other).
  assert (Hk : lookup k (w_now s') = Some (n', A')) by (unfold s'; cbn; apply lookup_put_same).
  pose proof (ri_st _ _ _ _ _ _ _ _ _ _ _ HR) as Hst. pose proof (ri_al _ _ _ _ _ _ _ _ _ _ _ HR) as Hal.
  pose proof (RI_last _ _ _ _ _ _ _ _ _ _ _ HR) as Hlast. pose proof (lw_next n Hlw) as Hnx. rewrite Hlast in Hnx.
  assert (Hap : n_applied n' <= llen A).
  { destruct (step_ok1 sz hmac n A o n' a (rip_ok _ _ _ _ Hwf _ _ _ _ _ HR Ho) Er) as (A1 & _ & _ & _ & Ht & _).
    destruct (a_taken a) as [[i e]|]; [|destruct Ht as [-> _]; assumption]. destruct Ht as (_ & _ & _ & -> & _ & Hn). exact (proj2 (nth_entry_len _ _ _ Hn)). }
  assert (Hlo : 1 <= l_oldest (n_log n') /\ l_oldest (n_log n') <= llen A + 1) by (destruct Hlw' as (X1 & X2 & _); lia).
  assert (H0 : forall (B : list entry) j e, nth_entry B j = Some e -> llen ([] : list entry) < j) by (intros B j e Hj; apply nth_entry_len in Hj; cbn; lia).
  assert (Hgrow : forall T, lgrow T (n_log n) (n_log n') -> prefix A A').
  { intros T [G1 G2]. pose proof (len_regrow A (n_log n') (proj1 Hlo) (proj2 Hlo)) as Hl'. fold A' in Hl'. apply nth_prefix; [lia|].
    intros j e Hj He. apply nth_regrow in He as [[_ He]|He]; try apply Hlo; [assumption|].
    destruct (G2 j e He) as [[_ Y]|[Y _]]; [exact (st_at_some _ _ _ _ _ Hst Y)|lia]. }
  (* an entry of the new log was in some log already, in a term that is not after this one, or it is added here *)
  assert (Hent : forall j e, nth_entry A' j = Some e -> (exists kb nb B, In (kb, (nb, B)) (w_past s) /\ nth_entry B j = Some e /\ n_term nb <= n_term n') \/
    (llen A < j /\ e_term e = n_term n' /\ ((is_leader n = true /\ n_term n' = n_term n) \/ is_leader n' = true) /\ prefix A A')).
  { intros j e He. apply nth_regrow in He as [[_ He]|He]; try apply Hlo; [left; exists k, n, A; auto|].
    assert (Hfrom : from_msg o j e -> (exists kb nb B, In (kb, (nb, B)) (w_past s) /\ nth_entry B j = Some e /\ n_term nb <= n_term n')).
    { intros X. pose proof X as (a1 & a2 & r & f & m & prev & pterm & commit & es & promise & ph & i & E & Hb & He' & Hj).
      destruct (V3 _ _ _ _ _ E) as [[Y1 Y2]|Y].
      - exists k, n, A. split; [assumption|]. split; [|lia]. rewrite Y1 in He. exact (st_at_some _ _ _ _ _ Hst He).
      - destruct (Hmsg _ _ _ _ _ E) as [to Hto]. destruct (gi_soup _ _ _ _ _ s HI _ _ _ Hto) as [nf [B [I1 I2]]]. exists f, nf, B. split; [assumption|].
        unfold gMP in I2. cbn [snd] in I2. rewrite Hb in I2. destruct I2 as (Z0 & Hp & [rest Hr] & _). split; [|lia]. rewrite Hj.
        unfold nth_entry. destruct (prev + 1 + N.of_nat i =? 0) eqn:E0; [lia|].
        rewrite <- (firstn_skipn (N.to_nat prev) B). unfold llen in Hp. rewrite nth_error_app2 by (rewrite firstn_length; lia).
        rewrite firstn_length. replace (N.to_nat (prev + 1 + N.of_nat i - 1) - Nat.min (N.to_nat prev) (length B))%nat with i by lia.
        rewrite Hr. rewrite nth_error_app1; [assumption|]. apply nth_error_Some. congruence. }
    destruct (S2 j e He) as [H|[(H1 & H2 & H3)|H]]; [|destruct (S8 j e He) as [H|[H|H]]|now left; apply Hfrom].
    - left. exists k, n, A. split; [assumption|]. split; [exact (st_at_some _ _ _ _ _ Hst H)|assumption].
    - left. exists k, n, A. split; [assumption|]. split; [exact (st_at_some _ _ _ _ _ Hst H)|assumption].
    - left. now apply Hfrom.
    - right. split; [lia|]. split; [assumption|]. split; [assumption|]. exact (Hgrow _ H). }
  assert (Hmatch : forall k1 n1 A1 k2 n2 A2 i e1 e2, In (k1, (n1, A1)) (w_past s') -> In (k2, (n2, A2)) (w_past s') ->
    nth_entry A1 i = Some e1 -> nth_entry A2 i = Some e2 -> e_term e1 = e_term e2 -> upto i A1 = upto i A2).
  { intros k1 n1 A1 k2 n2 A2 i e1 e2 I1 I2 E1 E2 Ht. exact (logs_match hmac M sm [] Fm HFM Hwf okx s' _ _ _ _ _ _ _ _ _ HI' Hun HF' I1 I2 E1 E2 Ht). }
  assert (Hwon : is_leader n' = true -> (is_leader n = true /\ n_term n' = n_term n) \/
    forall k1 n1 A1 j e, In (k1, (n1, A1)) (w_past s) -> nth_entry A1 j = Some e -> e_term e = n_term n' -> False).
  { intros L'. destruct (S4 L') as [H|H]; [auto|right]. intros k1 n1 A1 j e I1 He Ht.
    destruct (fr_led _ s HF _ _ _ _ _ I1 (H0 _ _ _ He) He) as (k0 & n0 & A0 & I0 & L0' & T0).
    assert (k0 = k).
    { apply (one_leader hmac sm [] Fm Hov okx s' k0 n0 A0 k n' A' HI' Hro); auto. congruence. }
    subst k0. destruct (fr_past _ s HF _ _ _ _ _ El I0 L0') as [X|[X1 X2]]; destruct H as [H|[H1 H2]]; try lia; congruence. }
  assert (Hle : forall j e, nth_entry A' j = Some e -> e_term e <= n_term n').
  { intros j e He. destruct (Hent j e He) as [(kb & nb & B & X1 & X2 & X3)|(X1 & X2 & _)]; [|lia]. pose proof (fu_le s HU _ _ _ _ _ X1 X2). lia. }
  assert (Hown : forall i e, (is_leader n = true /\ n_term n' = n_term n) \/ is_leader n' = true -> e_term e = n_term n' ->
    forall k1 n1 A1, In (k1, (n1, A1)) (w_past s) -> nth_entry A1 i = Some e -> nth_entry A i = Some e).
  { intros i e Hld Ht k1 n1 A1 I1 He.
    assert (Hld' : (is_leader n = true /\ n_term n' = n_term n) \/
      forall k1 n1 A1 j e, In (k1, (n1, A1)) (w_past s) -> nth_entry A1 j = Some e -> e_term e = n_term n' -> False) by (destruct Hld; auto).
    destruct Hld' as [[X1 X2]|X]; [|exfalso; eapply X; eauto].
    exact (fr_has _ s HF k n A El X1 _ _ _ _ _ I1 (H0 _ _ _ He) He ltac:(congruence)). }
  assert (Hcont : forall j ej, nth_entry A' j = Some ej -> forall k1 n1 A1 i e1, In (k1, (n1, A1)) (w_past s) -> i <= j -> nth_entry A1 i = Some e1 ->
    e_term e1 = e_term ej -> nth_entry A' i = Some e1).
  { intros j ej Hj k1 n1 A1 i e1 I1 Hij H1 Ht. destruct (Hent j ej Hj) as [(kb & nb & B & X1 & X2 & X3)|(X1 & X2 & X3 & X4)].
    - pose proof (fu_cont s HU _ _ _ _ _ _ _ _ _ _ I1 X1 Hij H1 X2 Ht) as Y. rewrite <- Y.
      apply (upto_nth i j); [|assumption]. exact (Hmatch _ _ _ _ _ _ _ _ _ Hnew (Hincl _ X1) Hj X2 eq_refl).
    - eapply prefix_nth; [exact X4|]. eapply Hown; eauto. congruence. }
  assert (Hreq : ~ In k (w_rolled s) -> cand n' = true \/ is_leader n' = true -> forall to m li lt h,
    In (k, (to, m)) (w_soup s') -> m_body m = VoteReq li lt h -> m_term m = n_term n' -> req_in li lt A' /\ (li <> 0 -> lt < m_term m)).
  { intros Hnr Hcl to m li lt h Hs Hb Ht.
    assert (HA : prefix A A').
    { destruct Hcl as [C|L]; [|exact (Hgrow _ (S7 L))]. apply (Hgrow 0). rewrite (S6 C). apply lgrow_refl. }
    apply Hsoup' in Hs as [Hs|[_ Hs]].
    - assert (Hold' : n_term n' = n_term n /\ (cand n = true \/ is_leader n = true)).
      { destruct (gi_soup _ _ _ _ _ s HI _ _ _ Hs) as [nf [B [I1 I2]]]. unfold gMP in I2. cbn [snd] in I2. rewrite Hb in I2.
        destruct (gi_chain _ _ _ _ _ s HI k nf B Hnr I1) as [y [Hy [C1 _]]]. rewrite El in Hy. injection Hy as <-. cbn [fst snd] in C1.
        pose proof (eh_term _ _ _ _ (C1 nf B I1)) as Hle1. split; [lia|].
        destruct Hcl as [C|L]; [destruct (S5 C) as [Y|[_ Y]]; [lia|auto]|destruct (S4 L) as [[Y _]|[Y|[_ Y]]]; [auto|lia|auto]]. }
      destruct Hold' as [Ht' Hcl']. destruct (fu_reqn s HU k n A to m li lt h Hnr El Hcl' Hs Hb ltac:(congruence)) as [Y1 Y2].
      split; [|assumption]. eapply req_in_mono; eassumption.
    - destruct (V1 _ _ _ _ _ Hs Hb) as (Y1 & Y2 & Y3 & Y4 & _). rewrite (last_term_of _ _ _ _ HR) in Y3. rewrite Hlast in Y2. subst li lt.
      split; [eapply req_in_mono; [exact HA|apply req_in_last]|]. intros Hd. unfold tlast.
      destruct (nth_entry A (llen A)) as [e|] eqn:E.
      + destruct Y4 as [Y4|[Y4 Y5]]; [pose proof (fu_le s HU _ _ _ _ _ Hin E); lia|pose proof (fu_cand s HU _ _ _ _ _ Hin Y5 E); lia].
      + destruct (nth_entry_some A (llen A)) as [e He]; [lia|lia|congruence]. }
  constructor.
  - intros k1 n1 A1 j e I1 He. apply Hold in I1 as [I1|I1]; [exact (fu_le s HU _ _ _ _ _ I1 He)|]. injection I1 as -> -> ->. eauto.
  - intros k1 n1 A1 i j ei ej I1 Hij Hi Hj. apply Hold in I1 as [I1|I1]; [exact (fu_mono s HU _ _ _ _ _ _ _ I1 Hij Hi Hj)|]. injection I1 as -> -> ->.
    destruct (Hent j ej Hj) as [(kb & nb & B & X1 & X2 & X3)|(X1 & X2 & _)]; [|rewrite X2; eauto].
    pose proof (Hmatch _ _ _ _ _ _ _ _ _ Hnew (Hincl _ X1) Hj X2 eq_refl) as Hu. rewrite (upto_nth i j _ _ Hu Hij) in Hi.
    exact (fu_mono s HU _ _ _ _ _ _ _ X1 Hij Hi X2).
  - intros k1 n1 A1 j e I1 He. apply Hold in I1 as [I1|I1].
    + destruct (fu_led s HU _ _ _ _ _ I1 He) as (k0 & n0 & A0 & X1 & X2). exists k0, n0, A0. auto.
    + injection I1 as -> -> ->. destruct (Hent j e He) as [(kb & nb & B & X1 & X2 & X3)|(X1 & X2 & X3 & X4)].
      * destruct (fu_led s HU _ _ _ _ _ X1 X2) as (k0 & n0 & A0 & Y1 & Y2 & Y3 & Y4). exists k0, n0, A0. do 3 (split; [auto|]).
        pose proof (Hmatch _ _ _ _ _ _ _ _ _ Hnew (Hincl _ X1) He X2 eq_refl) as Hu.
        destruct Y4 as [[Y4 Y5]|[Y4 Y5]]; [left; split; congruence|right]. split; [|assumption].
        assert (HB : A0 = upto (llen A0) B).
        { apply prefix_firstn in Y4. rewrite Y4 at 1. unfold upto, llen. now rewrite Nat2N.id. }
        rewrite HB, <- (upto_mono (llen A0) j A' B ltac:(lia) Hu). apply prefix_upto.
      * destruct X3 as [[X3 X5]|X3].
        -- exists k, n, A. do 2 (split; [auto|]). split; [congruence|]. right. auto.
        -- exists k, n', A'. do 2 (split; [auto|]). split; [congruence|]. left. split; [apply (nth_entry_len _ _ _ He)|reflexivity].
  - intros k1 n1 A1 k2 n2 A2 i j e1 e2 I1 I2 Hij H1 H2 Ht. apply Hold in I1 as [I1|I1], I2 as [I2|I2].
    + exact (fu_cont s HU _ _ _ _ _ _ _ _ _ _ I1 I2 Hij H1 H2 Ht).
    + injection I2 as -> -> ->. eapply Hcont; eauto.
    + injection I1 as -> -> ->. destruct (Hent i e1 H1) as [(kb & nb & B & X1 & X2 & X3)|(X1 & X2 & X3 & X4)].
      * exact (fu_cont s HU _ _ _ _ _ _ _ _ _ _ X1 I2 Hij X2 H2 Ht).
      * exfalso. pose proof (Hown j e2 X3 ltac:(congruence) _ _ _ I2 H2) as Y. apply nth_entry_len in Y. lia.
    + injection I1 as -> -> ->. injection I2 as -> -> ->. assumption.
  - intros k1 n1 A1 j e I1 C He. apply Hold in I1 as [I1|I1]; [exact (fu_cand s HU _ _ _ _ _ I1 C He)|]. injection I1 as -> -> ->.
    assert (HeA : nth_entry A j = Some e).
    { apply nth_regrow in He as [[_ He]|He]; try apply Hlo; [assumption|]. rewrite (S6 C) in He. exact (st_at_some _ _ _ _ _ Hst He). }
    destruct (S5 C) as [Y|[Y1 Y2]]; [pose proof (fu_le s HU _ _ _ _ _ Hin HeA); lia|]. rewrite Y1. exact (fu_cand s HU _ _ _ _ _ Hin Y2 HeA).
  - intros k1 n1 A1 to m li lt h Hnr El1 Hcl Hs Hb Ht. rewrite Hroll in Hnr. destruct (list_eq_dec N.eq_dec k1 k) as [->|Hd].
    + rewrite Hk in El1. injection El1 as <- <-. eapply Hreq; eauto.
    + rewrite (Hne k1 Hd) in El1. apply Hsoup' in Hs as [Hs|[Hs _]]; [|contradiction]. eapply (fu_reqn s HU); eauto.
  - intros k1 n1 A1 to m li lt h Hnr I1 Hcl Hs Hb Ht. rewrite Hroll in Hnr. apply Hold in I1 as [I1|I1].
    + apply Hsoup' in Hs as [Hs|[-> Hs]]; [eapply (fu_reqp s HU); eauto|]. exfalso.
      destruct (V1 _ _ _ _ _ Hs Hb) as (Y1 & _ & _ & Y4 & _). destruct (fr_past _ s HF _ _ _ _ _ El I1 Hcl) as [X|[X1 X2]]; destruct Y4 as [Y4|[Y4 Y5]]; try lia; congruence.
    + injection I1 as -> -> ->. eapply Hreq; eauto.
  - intros v n1 A1 c I1 Hc. apply Hold in I1 as [I1|I1].
    + destruct (fu_vote s HU _ _ _ _ I1 Hc) as [H|(to & m & li & lt & h & n0 & B0 & H1 & H2 & H3 & H4 & H5)]; [now left|right].
      exists to, m, li, lt, h, n0, B0. auto 8.
    + injection I1 as -> -> ->. destruct (V2 c Hc) as [H|[[H1 H2]|(ok1 & ok2 & rnd & m & li & lt & h & H1 & H2 & H3 & H4)]].
      * left. congruence.
      * destruct (fu_vote s HU _ _ _ _ Hin H2) as [H|(to & m & li & lt & h & n0 & B0 & X1 & X2 & X3 & X4 & X5 & X6)]; [now left|right].
        exists to, m, li, lt, h, n0, B0. rewrite H1. auto 8.
      * right. destruct (Hmsg _ _ _ _ _ H1) as [to Hto]. exists to, m, li, lt, h, n', A'. auto 8.
Qed.

Lemma step_full s ev : okx INone -> (forall g m, okx (IMember g) -> from_proto g = (m, M_OK) -> Fm m) -> ginv s -> unclashed (w_past s) -> unclashed (w_past (net_step sz hmac s ev)) ->
  ev_fixed okx ev -> fresh s -> psize (w_rolled (net_step sz hmac s ev)) <= sm -> calm (net_step sz hmac s ev) -> full s ->
  full (net_step sz hmac s ev).
Proof.
  intros O1 O2 HI Hun Hun' Hev HF Hro Hcalm HU. pose proof (step_inv sz hmac M sm [] Fm HFM Hwf okx O1 O2 s ev HI Hun Hev) as HI'.
  pose proof (step_fresh sz hmac M sm [] Fm HFM Hwf Hov okx s ev O1 O2 HI Hun Hev HF Hro Hcalm) as HF'.
  assert (Hr0 : forall k o, w_rolled (act sz hmac k o s) = w_rolled s).
  { intros k o. unfold act. destruct (lookup k (w_now s)) as [[n A]|]; [|reflexivity]. destruct (rstep sz hmac n o) as [[n' a]|]; reflexivity. }
  destruct ev as [k o|k j ok1 ok2 rnd|k j]; cbn [net_step] in *.
  - assert (Hc : match o with OReceive _ _ _ _ _ => False | _ => True end -> ginv (act sz hmac k o s) -> fresh (act sz hmac k o s) ->
      psize (w_rolled (act sz hmac k o s)) <= sm -> unclashed (w_past (act sz hmac k o s)) -> full (act sz hmac k o s)).
    { intros Ho HI1 HF1 Hr1 Hu1. rewrite Hr0 in Hr1. apply act_full; auto. intros ? ? ? ? ? ->. destruct Ho. }
    destruct o; auto.
  - destruct (nth_error (w_soup s) j) as [[from [to m]]|] eqn:Ej; [|assumption].
    destruct (match to with Some p => beq p k | None => _ end) eqn:Ed; [|assumption].
    apply act_full; auto; [rewrite Hr0 in Hro; exact Hro|]. intros a1 a2 r f m' E. injection E as _ _ _ <- <-. exists to. exact (nth_error_In _ _ Ej).
  - destruct (nth_error (w_past s) j) as [[k' x]|] eqn:Ej; [|assumption].
    destruct (beq k' k) eqn:Ek; [|assumption]. apply beq_eq in Ek. subst k'. apply nth_error_In in Ej.
    constructor; cbn [w_now w_past w_soup w_taken w_rolled]; try apply HU.
    + intros k1 n A to m li lt h Hnr Hl. rewrite pins_In in Hnr. rewrite lookup_put_other in Hl by tauto.
      exact (fu_reqn s HU k1 n A to m li lt h ltac:(tauto) Hl).
    + intros k1 n A to m li lt h Hnr. rewrite pins_In in Hnr. exact (fu_reqp s HU k1 n A to m li lt h ltac:(tauto)).
Qed.
Lemma seat_vote x group n c : seat_node sz hmac group M sm [] x = Ret n -> n_voted n = Some c -> c = s_id x.
Proof.
  intros E. unfold seat_node, new_node in E. cbv zeta in E. set (n0 := Node _ _ _ _ _ _ _ _ _ _ _ _ _ _) in E.
  destruct (voting n0 && _)%bool; [|injection E as <-; discriminate].
  apply bind_inv in E as (n1 & E1 & E). apply bind_inv in E as (n2 & E2 & E). destruct (n_out n2); [|discriminate]. injection E as <-.
  destruct (election_rest sz hmac _ _ n0 n0 n1 n2 eq_refl eq_refl eq_refl ltac:(lia) E1 E2) as [H|(_ & _ & H & _)].
  - rewrite (vq_voted _ _ H). discriminate.
  - intros Hc. rewrite H in Hc. injection Hc as <-. reflexivity.
Qed.
Lemma start_full group xs s : (forall g m, okx (IMember g) -> from_proto g = (m, M_OK) -> Fm m) -> NoDup (map s_id xs) -> Forall (fun x => s_drop x = 0%nat \/ (s_drop x < length ([] : list entry))%nat) xs ->
  start sz hmac group M sm [] xs = Ret s -> ginv s -> full s.
Proof.
  intros O2 Hnd Hd E HI. unfold start in E. apply bind_inv in E as [p [E1 E]]. injection E as <-.
  destruct (seated_in sz hmac M sm [] group xs p E1) as [Hids Hin]. rewrite Forall_forall in Hd. rewrite <- Hids in Hnd.
  assert (Hro : psize [] <= sm) by (cbn; lia).
  assert (Hch0 : chained hmac []) by exact I.
  assert (Hent : forall k n A j e, In (k, (n, A)) p -> nth_entry A j = Some e -> e_term e = n_term n /\ is_leader n = true).
  { intros k n A j e Hk He. destruct (Hin _ _ _ Hk) as [x [Hx [_ [En ->]]]]. pose proof (seat_shape sz hmac M sm [] x group n En) as Hs.
    pose proof (gi_past _ _ _ _ _ _ HI k n _ Hk) as [HR _]. pose proof (RI_lw _ _ _ _ _ _ _ _ _ _ _ HR) as Hlw.
    destruct (seat_first sz hmac M sm [] Fm HFM Hwf Hch0 okx O2 x group n (Hd x Hx) En) as [H1 [H2 H3]].
    assert (Hlo : 1 <= l_oldest (n_log n) /\ l_oldest (n_log n) <= llen ([] : list entry) + 1) by (destruct Hlw as (X1 & X2 & _); cbn in *; lia).
    apply nth_regrow in He as [[Hl He]|He]; try apply Hlo; [apply nth_entry_len in He; cbn in He; lia|]. destruct (Hs j e He) as [H|(_ & H)]; [|exact H].
    exfalso. apply at_idx_lt in H. unfold nxt in H. cbn in H. unfold llen in *. rewrite skipn_length in H. cbn [length] in H. specialize (Hd x Hx). lia. }
  assert (Hone : forall k1 n1 A1 k2 n2 A2 i j e1 e2, In (k1, (n1, A1)) p -> In (k2, (n2, A2)) p -> nth_entry A1 i = Some e1 -> nth_entry A2 j = Some e2 ->
    e_term e1 = e_term e2 -> A1 = A2).
  { intros k1 n1 A1 k2 n2 A2 i j e1 e2 I1 I2 H1 H2 Ht. destruct (Hent _ _ _ _ _ I1 H1) as [X1 X2], (Hent _ _ _ _ _ I2 H2) as [Y1 Y2].
    assert (k1 = k2) by (refine (one_leader hmac sm [] Fm Hov okx _ k1 n1 A1 k2 n2 A2 HI Hro _ _ _ _ _); auto; congruence). subst k2.
    pose proof (nodup_same p k1 _ _ Hnd I1 I2) as E2. injection E2 as <- <-. reflexivity. }
  constructor; cbn [w_now w_past w_soup w_taken w_rolled].
  - intros k n A j e Hk He. destruct (Hent _ _ _ _ _ Hk He). lia.
  - intros k n A i j ei ej Hk _ Hi Hj. destruct (Hent _ _ _ _ _ Hk Hi), (Hent _ _ _ _ _ Hk Hj). lia.
  - intros k n A j e Hk He. destruct (Hent _ _ _ _ _ Hk He). exists k, n, A. do 3 (split; [auto|]). left. split; [apply (nth_entry_len _ _ _ He)|reflexivity].
  - intros k1 n1 A1 k2 n2 A2 i j e1 e2 I1 I2 _ H1 H2 Ht. rewrite <- (Hone _ _ _ _ _ _ _ _ _ _ I1 I2 H1 H2 Ht). exact H1.
  - intros k n A j e Hk C He. destruct (Hent _ _ _ _ _ Hk He) as [_ L]. destruct (leader_cand n L C).
  - intros ? ? ? ? ? ? ? ? _ _ _ [].
  - intros ? ? ? ? ? ? ? ? _ _ _ [].
  - intros v n A c Hv Hc. left. destruct (Hin _ _ _ Hv) as [x [_ [-> [En _]]]]. exact (seat_vote x group n c En Hc).
Qed.
Lemma run_full evs : okx INone -> (forall g m, okx (IMember g) -> from_proto g = (m, M_OK) -> Fm m) -> forall s, ginv s -> fresh s -> full s -> Forall (ev_fixed okx) evs -> unclashed (w_past (net_run sz hmac s evs)) ->
  psize (w_rolled (net_run sz hmac s evs)) <= sm -> calm (net_run sz hmac s evs) -> full (net_run sz hmac s evs).
Proof.
  intros O1 O2. induction evs as [|ev evs IH]; intros s HI HF HU Hf Hun Hr Hc; cbn [net_run fold_left] in *; [assumption|].
  inversion Hf; subst.
  assert (Hi : incl (w_past (net_step sz hmac s ev)) (w_past (net_run sz hmac (net_step sz hmac s ev) evs))) by apply run_past.
  assert (Hu' : unclashed (w_past (net_step sz hmac s ev))).
  { intros k1 n1 A1 k2 n2 A2 H3 H4. apply (Hun k1 n1 A1 k2 n2 A2); apply Hi; assumption. }
  assert (Hu : unclashed (w_past s)).
  { intros k1 n1 A1 k2 n2 A2 H3 H4. apply (Hu' k1 n1 A1 k2 n2 A2); apply step_past; assumption. }
  destruct (run_rolled sz hmac M Fm HFM Hwf okx evs (net_step sz hmac s ev)) as [R1 R2].
  assert (Hr' : psize (w_rolled (net_step sz hmac s ev)) <= sm) by (unfold net_run in R2; lia).
  assert (Hc' : calm (net_step sz hmac s ev)) by (intros k n A X Y; apply (Hc k n A); [apply R1, X|apply Hi, Y]).
  apply IH; auto.
  - eapply step_inv; eauto.
  - eapply step_fresh; eauto.
  - apply step_full; auto.
Qed.

Lemma complete s k1 n1 A1 c e : ginv s -> unclashed (w_past s) -> fresh s -> full s -> psize (w_rolled s) <= sm -> calm s ->
  In (k1, (n1, A1)) (w_past s) -> c <= n_commit n1 -> nth_entry A1 c = Some e -> e_term e = n_term n1 ->
  forall T k2 n2 A2, n_term n2 = T -> In (k2, (n2, A2)) (w_past s) -> is_leader n2 = true -> n_term n1 < n_term n2 -> upto c A2 = upto c A1.
Proof.
  intros HI Hun HF HU Hr Hc I1 Hcm He Het.
  set (X := upto c A1). pose proof (nth_entry_len _ _ _ He) as Hcl.
  assert (HXe : nth_entry X c = Some e) by (unfold X; apply upto_nth_some; [assumption|lia]).
  assert (HXl : llen X = c) by (apply upto_len; lia).
  (* those who promised *)
  assert (Hq : exists q m, Fm m /\ is_quorum (m_voting m) sm q /\ forall x, In x q -> exists nv Av, In (x, (nv, Av)) (w_past s) /\ n_term nv = n_term n1 /\ prefix X (upto (n_promise nv) Av)).
  { destruct (gi_past _ _ _ _ _ s HI k1 n1 A1 I1) as [HR _]. destruct (ri_cm _ _ _ _ _ _ _ _ _ _ _ HR) as [Y1 [_ [q [[m [Y4 Y2]] Y3]]]].
    exists q, m. split; [assumption|]. split; [assumption|]. intros x Hx.
    assert (Z : exists nv Av, In (x, (nv, Av)) (w_past s) /\ n_term nv <= n_term n1 /\ prefix (upto (n_commit n1) A1) (upto (n_promise nv) Av)).
    { destruct (Y3 x Hx) as [(nv & Av & Z1 & Z2 & Z3)|[-> Z]].
      - exists nv, Av. split; [assumption|]. split; [|assumption]. destruct Z2 as [Z2|Z2]; [|assumption]. rewrite (upto_len _ _ Y1) in Z2. cbn in Z2. lia.
      - exists n1, A1. split; [assumption|]. split; [lia|assumption]. }
    destruct Z as (nv & Av & Z1 & Z2 & Z3). exists nv, Av. split; [assumption|].
    assert (Zp : prefix X (upto (n_promise nv) Av)) by (eapply prefix_trans; [apply upto_le; exact Hcm|exact Z3]).
    split; [|assumption]. pose proof (fu_le s HU x nv Av c e Z1) as Hle.
    specialize (Hle (prefix_nth _ _ _ _ (prefix_trans _ _ _ Zp (prefix_upto _ _)) HXe)). lia. }
  destruct Hq as (q & m1 & Q0 & Q1 & Q2).
  assert (HXu : forall B : list entry, prefix X B -> upto c B = X).
  { intros B Hp. rewrite <- (prefix_upto_eq c _ _ Hp) by lia. apply upto_all. lia. }
  intros T. induction T as [T IH] using (well_founded_induction N.lt_wf_0).
  intros k2 n2 A2 HT I2 L2 Hlt.
  destruct (gi_past _ _ _ _ _ s HI k2 n2 A2 I2) as [HR2 _]. destruct (ri_id _ _ _ _ _ _ _ _ _ _ _ HR2) as [Hid2 _].
  assert (Hqv : exists q2 m2, Fm m2 /\ is_quorum (m_voting m2) sm q2 /\ forall x, In x q2 -> VF (w_past s) x (n_term n2) k2 \/ x = k2).
  { pose proof (ri_ro _ _ _ _ _ _ _ _ _ _ _ HR2) as Hro. unfold is_leader in L2. destruct (n_role n2) as [| |fs hb rel]; try discriminate.
    destruct Hro as [_ [[_ [q2 [[m2 [Y0 Y1]] Y2]]] _]]. exists q2, m2. split; [assumption|]. split; [assumption|]. intros x Hx. pose proof (Y2 x Hx) as Y. rewrite Hid2 in Y. exact Y. }
  destruct Hqv as (q2 & m2 & Q5 & Q3 & Q4). destruct (honest_both q q2 (w_rolled s) sm (proj1 Q1) (Hov _ _ _ _ Q0 Q5 Q1 Q3) Hr) as (v & Vq & Vq2 & Vr).
  destruct (Q2 v Vq) as (nv & Av & Iv & Tv & Pv).
  (* what v has after it promised *)
  assert (Hkeep : forall n0 B0, In (v, (n0, B0)) (w_past s) -> n_term n1 < n_term n0 -> prefix X B0).
  { intros n0 B0 I0 T0. destruct (gi_chain _ _ _ _ _ s HI v nv Av Vr Iv) as [x [_ [_ C]]]. destruct (C _ _ _ _ Iv I0) as [Ev|Ev].
    - eapply prefix_trans; [exact Pv|]. eapply prefix_trans; [|exact (eh_keep _ _ _ _ Ev)]. apply upto_le. lia.
    - pose proof (eh_term _ _ _ _ Ev). lia. }
  assert (Hown : v = k2 -> upto c A2 = X) by (intros ->; apply HXu, (Hkeep n2 A2 I2 Hlt)).
  destruct (Q4 v Vq2) as [(nw & Bw & Iw & Tw & Vw)|Hv]; [|auto].
  destruct (fu_vote s HU v nw Bw k2 Iw Vw) as [Hv|(to & m & li & lt & h & n0 & B0 & Hs & Hb & Hm & I0 & T0 & Hup)]; [auto|].
  assert (Hnr : ~ In k2 (w_rolled s)) by (intros Hk; rewrite (Hc k2 n2 A2 Hk I2) in L2; discriminate).
  destruct (fu_reqp s HU k2 n2 A2 to m li lt h Hnr I2 L2 Hs Hb ltac:(congruence)) as [Hreq Hlt2].
  pose proof (Hkeep n0 B0 I0 ltac:(lia)) as HB0.
  destruct (gi_past _ _ _ _ _ s HI v n0 B0 I0) as [HR0 _].
  unfold up_to_date in Hup. rewrite (last_term_of _ _ _ _ HR0), (RI_last _ _ _ _ _ _ _ _ _ _ _ HR0) in Hup.
  pose proof (prefix_nth _ _ _ _ HB0 HXe) as HeB.
  pose proof (nth_entry_len _ _ _ HeB) as HlB.
  assert (Htl : n_term n1 <= tlast B0).
  { unfold tlast. destruct (nth_entry_some B0 (llen B0)) as [x Hx]; [lia|lia|]. rewrite Hx. rewrite <- Het. exact (fu_mono s HU _ _ _ _ _ _ _ I0 (proj2 HlB) HeB Hx). }
  assert (Hli : exists x, nth_entry A2 li = Some x /\ e_term x = lt).
  { destruct Hreq as [[-> ->]|Hx]; [|assumption]. exfalso. destruct Hup as [Hup|[_ Hup]]; lia. }
  destruct Hli as (x & Hx & Hxt). pose proof (nth_entry_len _ _ _ Hx) as Hxl.
  destruct (N.eq_dec lt (n_term n1)) as [Heq|Hne].
  - assert (c <= li) by (destruct Hup as [Hup|[Hup1 Hup2]]; lia).
    pose proof (fu_cont s HU _ _ _ _ _ _ c li e x I1 I2 ltac:(assumption) He Hx ltac:(congruence)) as Hy.
    symmetry. exact (logs_match hmac M sm [] Fm HFM Hwf okx s _ _ _ _ _ _ _ _ _ HI Hun HF I1 I2 He Hy eq_refl).
  - assert (Hgt : n_term n1 < lt) by (destruct Hup as [Hup|[Hup1 Hup2]]; lia).
    destruct (fu_led s HU _ _ _ _ _ I2 Hx) as (k0 & n' & A0 & I' & L' & T' & Hor). rewrite Hxt in T'.
    pose proof (IH lt ltac:(specialize (Hlt2 ltac:(lia)); lia) k0 n' A0 T' I' L' ltac:(lia)) as HA0.
    assert (HcA : nth_entry A0 c = Some e) by (rewrite <- He; apply (upto_nth c c); [exact HA0|lia]).
    destruct Hor as [[Z1 Z2]|[Z1 Z2]].
    + assert (Hxc : nth_entry A0 li = Some x) by (rewrite <- Hx; apply (upto_nth li li); [assumption|lia]).
      destruct (N.le_gt_cases c li) as [Hc1|Hc1]; [rewrite <- (upto_mono c li A0 A2 Hc1 Z2); exact HA0|].
      pose proof (fu_mono s HU _ _ _ _ _ _ _ I' (N.lt_le_incl _ _ Hc1) Hxc HcA). lia.
    + rewrite <- (prefix_upto_eq c _ _ Z1) by (apply (nth_entry_len _ _ _ HcA)). exact HA0.
Qed.
End Complete.
