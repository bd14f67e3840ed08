(* Where entries come from in a group of replicas: proofs. *)
From Verif Require Import RaftLog Raft RaftSpec RaftChain RaftLogProofs RaftNode RaftRun RaftShape RaftNet RaftNetSpec RaftNetProofs RaftMoveSpec RaftMoveProofs
  MembershipSpec MembershipProofs UtilProofs.

Lemma nth_regrow A l j e : 1 <= l_oldest l -> l_oldest l <= llen A + 1 -> nth_entry (regrow A l) j = Some e ->
  (j < l_oldest l /\ nth_entry A j = Some e) \/ at_idx l j = Some e.
Proof.
  intros H1 H2 H. unfold nth_entry, regrow, llen in *. destruct (j =? 0) eqn:E0; [discriminate|].
  destruct (Nat.lt_ge_cases (N.to_nat (j - 1)) (length (firstn (N.to_nat (l_oldest l - 1)) A))) as [Hl|Hl].
  - left. rewrite nth_error_app1 in H by assumption. rewrite firstn_length in Hl. split; [lia|]. rewrite <- H.
    rewrite <- (firstn_skipn (N.to_nat (l_oldest l - 1)) A) at 1. apply nth_error_app1. rewrite firstn_length. lia.
  - right. rewrite nth_error_app2 in H by assumption. rewrite firstn_length in *. unfold at_idx.
    destruct (j <? l_oldest l) eqn:Ej; [lia|]. rewrite <- H. f_equal. lia.
Qed.
Lemma len_regrow A l : 1 <= l_oldest l -> l_oldest l <= llen A + 1 -> llen (regrow A l) + 1 = nxt l.
Proof. intros H1 H2. unfold regrow, nxt, llen in *. rewrite app_length, firstn_length. lia. Qed.

Section Fresh.
Variable sz : sizes.
Variable hmac : bytes -> bytes -> bytes.
Variable M : members.
Variable sm : N.
Variable L0 : list entry.
Variable Fm : members -> Prop.
Hypothesis HFM : Fm M.
Hypothesis Hwf : forall m, Fm m -> wf_members m.
Hypothesis Hov : overlapping sm Fm.
Variable okx : inner -> Prop.
Notation ginv := (ginv hmac sm L0 Fm okx).

(* a replica that was put back never led *)
Definition calm (s : net) : Prop := forall k n A, In k (w_rolled s) -> In (k, (n, A)) (w_past s) -> is_leader n = false.
Record fresh (s : net) : Prop := MkFresh {
  fr_led : forall k n A j e, In (k, (n, A)) (w_past s) -> llen L0 < j -> nth_entry A j = Some e ->
    exists k0 n0 A0, In (k0, (n0, A0)) (w_past s) /\ is_leader n0 = true /\ n_term n0 = e_term e;
  fr_has : forall k n A, lookup k (w_now s) = Some (n, A) -> is_leader n = true ->
    forall k1 n1 A1 j e, In (k1, (n1, A1)) (w_past s) -> llen L0 < j -> nth_entry A1 j = Some e -> e_term e = n_term n -> nth_entry A j = Some e;
  fr_past : forall k n A n0 A0, lookup k (w_now s) = Some (n, A) -> In (k, (n0, A0)) (w_past s) -> is_leader n0 = true ->
    n_term n0 < n_term n \/ (n_term n0 = n_term n /\ cand n = false);
  fr_match : forall k1 n1 A1 k2 n2 A2 j e1 e2, In (k1, (n1, A1)) (w_past s) -> In (k2, (n2, A2)) (w_past s) -> llen L0 < j ->
    nth_entry A1 j = Some e1 -> nth_entry A2 j = Some e2 -> e_term e1 = e_term e2 -> e1 = e2
}.

Lemma act_fresh k o s : ginv s -> ginv (act sz hmac k o s) -> psize (w_rolled s) <= sm -> fresh s ->
  (forall n A j e, lookup k (w_now s) = Some (n, A) -> from_msg o j e -> exists kf nf B, In (kf, (nf, B)) (w_past s) /\ nth_entry B j = Some e) ->
  fresh (act sz hmac k o s).
Proof.
  intros HI HI' Hro HF Hmsg. unfold act in *. destruct (lookup k (w_now s)) as [[n A]|] eqn:El; [|assumption].
  destruct (rstep sz hmac n o) as [[n' a]|] eqn:Er; [|assumption]. cbv zeta in *. specialize (Hmsg n A). 
  pose proof (gi_now _ _ _ _ _ s HI k n A El) as Hin. destruct (gi_past _ _ _ _ _ s HI k n A Hin) as [HR Ho].
  set (A' := regrow A (n_log n')) in *. set (s' := Net _ _ _ _ _) in *.
  assert (Hnew : In (k, (n', A')) (w_past s')) by (unfold s'; cbn; apply in_or_app; right; now left).
  assert (Hincl : forall x, In x (w_past s) -> In x (w_past s')) by (intros x Hx; unfold s'; cbn; apply in_or_app; now left).
  destruct (gi_past _ _ _ _ _ s' HI' k n' A' Hnew) as [HR' _].
  pose proof (RI_lw _ _ _ _ _ _ _ _ _ _ _ HR) as Hlw. pose proof (RI_lw _ _ _ _ _ _ _ _ _ _ _ HR') as Hlw'.
  destruct (rstep_shape sz hmac n o n' a Hlw Er) as [S1 S2 S3 S4 S5 _ _ _].
  assert (Hold : forall x, In x (w_past s') -> In x (w_past s) \/ x = (k, (n', A'))).
  { intros x Hx. unfold s' in Hx; cbn in Hx. apply in_app_or in Hx as [Hx|[Hx|[]]]; auto. }
  assert (Hne : forall k1, k1 <> k -> lookup k1 (w_now s') = lookup k1 (w_now s)) by (intros k1 Hd; unfold s'; cbn; now rewrite lookup_put_other).
  assert (Hk : lookup k (w_now s') = Some (n', A')) by (unfold s'; cbn; apply lookup_put_same).
  pose proof (ri_st _ _ _ _ _ _ _ _ _ _ _ HR) as Hst. pose proof (ri_al _ _ _ _ _ _ _ _ _ _ _ HR) as Hal.
  pose proof (RI_last _ _ _ _ _ _ _ _ _ _ _ HR) as Hlast. pose proof (lw_next n Hlw) as Hnx. rewrite Hlast in Hnx.
  (* how far the front may be gone *)
  assert (Hap : n_applied n' <= llen A).
  { destruct (step_ok1 sz hmac n A o n' a (rip_ok _ _ _ _ Hwf _ _ _ _ _ HR Ho) Er) as (A1 & _ & _ & _ & Ht & _).
    destruct (a_taken a) as [[i e]|]; [|destruct Ht as [-> _]; assumption]. destruct Ht as (_ & _ & _ & -> & _ & Hn). exact (proj2 (nth_entry_len _ _ _ Hn)). }
  assert (Hlo : 1 <= l_oldest (n_log n') /\ l_oldest (n_log n') <= llen A + 1) by (destruct Hlw' as (X1 & X2 & _); lia).
  assert (Hent : forall j e, nth_entry A' j = Some e -> (exists kb nb B, In (kb, (nb, B)) (w_past s) /\ nth_entry B j = Some e) \/
    (llen A < j /\ e_term e = n_term n' /\ ((is_leader n = true /\ n_term n' = n_term n) \/ is_leader n' = true))).
  { intros j e He. apply nth_regrow in He as [[_ He]|He]; try apply Hlo; [left; eauto|].
    destruct (S2 j e He) as [H|[(H1 & H2 & H3)|H]].
    - left. exists k, n, A. split; [assumption|]. exact (st_at_some _ _ _ _ _ Hst H).
    - right. split; [lia|auto].
    - left. exact (Hmsg _ _ eq_refl H). }
  (* nobody led in the term that is won in this step *)
  assert (Hwon : is_leader n' = true -> (is_leader n = true /\ n_term n' = n_term n) \/
    forall k1 n1 A1 j e, In (k1, (n1, A1)) (w_past s) -> llen L0 < j -> nth_entry A1 j = Some e -> e_term e = n_term n' -> False).
  { intros L'. destruct (S4 L') as [H|H]; [auto|right]. intros k1 n1 A1 j e I1 Hj He Ht.
    destruct (fr_led s HF _ _ _ _ _ I1 Hj He) as (k0 & n0 & A0 & I0 & L0' & T0).
    assert (k0 = k).
    { apply (one_leader hmac sm L0 Fm Hov okx s' k0 n0 A0 k n' A' HI' Hro); auto. congruence. }
    subst k0. destruct (fr_past s HF _ _ _ _ _ El I0 L0') as [X|[X1 X2]]; destruct H as [H|[H1 H2]]; try lia; congruence. }
  assert (Hown : forall j e k1 n1 A1 e1, llen A < j -> e_term e = n_term n' -> ((is_leader n = true /\ n_term n' = n_term n) \/ is_leader n' = true) ->
    In (k1, (n1, A1)) (w_past s) -> llen L0 < j -> nth_entry A1 j = Some e1 -> e_term e1 = e_term e -> False).
  { intros j e k1 n1 A1 e1 Hj Ht Hld I1 Hj0 He1 Hte.
    assert (Hld' : (is_leader n = true /\ n_term n' = n_term n) \/
      forall k1 n1 A1 j e, In (k1, (n1, A1)) (w_past s) -> llen L0 < j -> nth_entry A1 j = Some e -> e_term e = n_term n' -> False) by (destruct Hld; auto).
    destruct Hld' as [[X1 X2]|X]; [|eapply X; eauto; congruence].
    pose proof (fr_has s HF k n A El X1 _ _ _ _ _ I1 Hj0 He1 ltac:(congruence)) as H. apply nth_entry_len in H. lia. }
  constructor.
  - intros k1 n1 A1 j e I1 Hj He. apply Hold in I1 as [I1|I1].
    + destruct (fr_led s HF _ _ _ _ _ I1 Hj He) as (k0 & n0 & A0 & X1 & X2). exists k0, n0, A0. auto.
    + injection I1 as -> -> ->. destruct (Hent j e He) as [(kb & nb & B & X1 & X2)|(X1 & X2 & X3)].
      * destruct (fr_led s HF _ _ _ _ _ X1 Hj X2) as (k0 & n0 & A0 & Y1 & Y2). exists k0, n0, A0. auto.
      * destruct X3 as [[X3 X4]|X3]; [exists k, n, A|exists k, n', A']; repeat split; auto; congruence.
  - intros kc nc Ac Ec Lc k1 n1 A1 j e I1 Hj He Ht. destruct (list_eq_dec N.eq_dec kc k) as [->|Hd].
    + rewrite Hk in Ec. injection Ec as <- <-. apply Hold in I1 as [I1|I1]; [|injection I1 as -> -> ->; assumption].
      destruct (Hwon Lc) as [[X1 X2]|X]; [|exfalso; eapply X; eauto].
      pose proof (fr_has s HF k n A El X1 _ _ _ _ _ I1 Hj He ltac:(congruence)) as H.
      pose proof (S3 X1 Lc X2) as [G1 G2].
      pose proof (nth_entry_len _ _ _ H) as Hl. pose proof (len_regrow A (n_log n') (proj1 Hlo) (proj2 Hlo)) as Hl'. fold A' in Hl'.
      destruct (nth_entry A' j) as [x|] eqn:Ex.
      2:{ exfalso. unfold nth_entry in Ex. destruct (j =? 0) eqn:E0; [lia|]. apply nth_error_None in Ex. unfold llen in *. lia. }
      f_equal. apply nth_regrow in Ex as [[_ Ex]|Ex]; try apply Hlo; [congruence|].
      destruct (G2 j x Ex) as [[_ Y]|[Y _]]; [|lia]. apply (st_at_some _ _ _ _ _ Hst) in Y. congruence.
    + rewrite (Hne kc Hd) in Ec. apply Hold in I1 as [I1|I1]; [exact (fr_has s HF kc nc Ac Ec Lc _ _ _ _ _ I1 Hj He Ht)|].
      injection I1 as -> -> ->. destruct (Hent j e He) as [(kb & nb & B & X1 & X2)|(X1 & X2 & X3)].
      * exact (fr_has s HF kc nc Ac Ec Lc _ _ _ _ _ X1 Hj X2 Ht).
      * exfalso. apply Hd. pose proof (gi_now _ _ _ _ _ s HI kc nc Ac Ec) as Ic.
        destruct X3 as [[X3 X4]|X3].
        -- apply (one_leader hmac sm L0 Fm Hov okx s kc nc Ac k n A HI Hro); auto. congruence.
        -- apply (one_leader hmac sm L0 Fm Hov okx s' kc nc Ac k n' A' HI' Hro); auto. congruence.
  - intros kc nc Ac n0 A0 Ec I0 L0'. destruct (list_eq_dec N.eq_dec kc k) as [->|Hd].
    + rewrite Hk in Ec. injection Ec as <- <-. apply Hold in I0 as [I0|I0].
      * destruct (fr_past s HF _ _ _ _ _ El I0 L0') as [X|[X1 X2]]; [left; lia|].
        destruct (N.eq_dec (n_term n') (n_term n)) as [T|T]; [right; split; [congruence|]|left; lia].
        destruct (cand n') eqn:C; [|reflexivity]. destruct (S5 eq_refl) as [Y|[_ Y]]; [lia|congruence].
      * injection I0 as -> ->. right. split; [reflexivity|]. destruct (cand n') eqn:C; [|reflexivity]. exfalso. exact (leader_cand n' L0' C).
    + rewrite (Hne kc Hd) in Ec. apply Hold in I0 as [I0|I0]; [exact (fr_past s HF _ _ _ _ _ Ec I0 L0')|]. injection I0 as -> _ _. congruence.
  - intros k1 n1 A1 k2 n2 A2 j e1 e2 I1 I2 Hj H1 H2 Ht.
    apply Hold in I1 as [I1|I1], I2 as [I2|I2].
    + exact (fr_match s HF _ _ _ _ _ _ _ _ _ I1 I2 Hj H1 H2 Ht).
    + injection I2 as -> -> ->. destruct (Hent j e2 H2) as [(kb & nb & B & X1 & X2)|(X1 & X2 & X3)].
      * exact (fr_match s HF _ _ _ _ _ _ _ _ _ I1 X1 Hj H1 X2 Ht).
      * exfalso. eapply (Hown j e2); eauto.
    + injection I1 as -> -> ->. destruct (Hent j e1 H1) as [(kb & nb & B & X1 & X2)|(X1 & X2 & X3)].
      * exact (fr_match s HF _ _ _ _ _ _ _ _ _ X1 I2 Hj X2 H2 Ht).
      * exfalso. eapply (Hown j e1); eauto.
    + injection I1 as -> -> ->. injection I2 as -> -> ->. congruence.
Qed.

Lemma from_msg_sent s k from to m ok1 ok2 rnd j e n A : ginv s -> In (from, (to, m)) (w_soup s) -> lookup k (w_now s) = Some (n, A) ->
  from_msg (OReceive ok1 ok2 rnd from m) j e -> exists kf nf B, In (kf, (nf, B)) (w_past s) /\ nth_entry B j = Some e.
Proof.
  intros HI Hs _ (a1 & a2 & r & f & m' & prev & pterm & commit & es & promise & ph & i & E & Hb & He & ->). injection E as <- <- <- <- <-.
  destruct (gi_soup _ _ _ _ _ s HI from to m Hs) as [nf [B [H1 H2]]]. exists from, nf, B. split; [assumption|].
  unfold gMP in H2. cbn [snd] in H2. rewrite Hb in H2. destruct H2 as (_ & Hp & [rest Hr] & _).
  unfold nth_entry. destruct (prev + 1 + N.of_nat i =? 0) eqn:E0; [lia|].
  rewrite <- (firstn_skipn (N.to_nat prev) B). unfold llen in Hp. rewrite nth_error_app2 by (rewrite firstn_length; lia).
  rewrite firstn_length. replace (N.to_nat (prev + 1 + N.of_nat i - 1) - Nat.min (N.to_nat prev) (length B))%nat with i by lia.
  rewrite Hr. rewrite nth_error_app1; [assumption|]. apply nth_error_Some. congruence.
Qed.
Lemma step_fresh s ev : okx INone -> (forall g m, okx (IMember g) -> from_proto g = (m, M_OK) -> Fm m) -> ginv s -> unclashed (w_past s) -> ev_fixed okx ev -> fresh s -> psize (w_rolled (net_step sz hmac s ev)) <= sm -> calm (net_step sz hmac s ev) ->
  fresh (net_step sz hmac s ev).
Proof.
  intros O1 O2 HI Hun Hev HF Hro Hcalm. pose proof (step_inv sz hmac M sm L0 Fm HFM Hwf okx O1 O2 s ev HI Hun Hev) as HI'.
  assert (Hr0 : forall k o, w_rolled (act sz hmac k o s) = w_rolled s).
  { intros k o. unfold act. destruct (lookup k (w_now s)) as [[n A]|]; [|reflexivity]. destruct (rstep sz hmac n o) as [[n' a]|]; reflexivity. }
  destruct ev as [k o|k j ok1 ok2 rnd|k j]; cbn [net_step] in *.
  - assert (Hc : match o with OReceive _ _ _ _ _ => False | _ => True end -> ginv (act sz hmac k o s) -> fresh (act sz hmac k o s)).
    { intros Ho HI1. apply act_fresh; auto. 2:{ intros n A i e _ (a1 & a2 & r & f & m' & prev & pterm & commit & es & promise & ph & i' & E & _). subst o. destruct Ho. }
      destruct o; try destruct Ho; rewrite ?Hr0 in Hro; exact Hro. }
    destruct o; auto.
  - destruct (nth_error (w_soup s) j) as [[from [to m]]|] eqn:Ej; [|assumption].
    destruct (match to with Some p => beq p k | None => _ end) eqn:Ed; [|assumption].
    apply act_fresh; auto; [rewrite Hr0 in Hro; exact Hro|]. intros n A i e El Hm. exact (from_msg_sent s k from to m _ _ _ _ _ n A HI (nth_error_In _ _ Ej) El Hm).
  - destruct (nth_error (w_past s) j) as [[k' x]|] eqn:Ej; [|assumption].
    destruct (beq k' k) eqn:Ek; [|assumption]. apply beq_eq in Ek. subst k'. apply nth_error_In in Ej.
    assert (Hck : forall n A, In (k, (n, A)) (w_past s) -> is_leader n = false).
    { intros n A Hin. apply (Hcalm k n A); [cbn [w_rolled]; apply pins_In; now left|assumption]. }
    constructor; cbn [w_now w_past w_soup w_taken w_rolled]; try apply HF.
    + intros k1 n A Hl. destruct (list_eq_dec N.eq_dec k1 k) as [->|Hne].
      * rewrite lookup_put_same in Hl. injection Hl as ->. rewrite (Hck _ _ Ej). discriminate.
      * rewrite lookup_put_other in Hl by assumption. exact (fr_has _ HF k1 n A Hl).
    + intros k1 n A n0 A0 Hl Hin L. destruct (list_eq_dec N.eq_dec k1 k) as [->|Hne].
      * rewrite (Hck _ _ Hin) in L. discriminate.
      * rewrite lookup_put_other in Hl by assumption. eapply fr_past; eauto.
Qed.
Lemma rolled_mono s ev : incl (w_rolled s) (w_rolled (net_step sz hmac s ev)).
Proof.
  assert (Ha : forall k o, incl (w_rolled s) (w_rolled (act sz hmac k o s))).
  { intros k o. unfold act. destruct (lookup k (w_now s)) as [[n A]|]; [|apply incl_refl]. destruct (rstep sz hmac n o) as [[n' a]|]; apply incl_refl. }
  destruct ev as [k o|k j ok1 ok2 rnd|k j]; cbn [net_step].
  - destruct o; auto; apply incl_refl.
  - destruct (nth_error (w_soup s) j) as [[from [to m]]|]; [|apply incl_refl]. destruct (match to with Some p => beq p k | None => _ end); [apply Ha|apply incl_refl].
  - destruct (nth_error (w_past s) j) as [[k' x]|]; [|apply incl_refl]. destruct (beq k' k); [|apply incl_refl]. cbn [w_rolled]. intros y Hy. apply pins_In. now right.
Qed.
Lemma seat_shape x group n : seat_node sz hmac group M sm L0 x = Ret n ->
  (forall i e, at_idx (n_log n) i = Some e -> at_idx (RLog (skipn (s_drop x) L0) (1 + N.of_nat (s_drop x)) (s_bytes x) (s_max x)) i = Some e \/
    (nxt (RLog (skipn (s_drop x) L0) (1 + N.of_nat (s_drop x)) (s_bytes x) (s_max x)) <= i /\ e_term e = n_term n /\ is_leader n = true)).
Proof.
  intros E. unfold seat_node, new_node in E. cbv zeta in E.
  set (n0 := Node _ _ _ _ _ _ _ _ _ _ _ _ _ _) in E.
  assert (Hs : shape n0 OTake n).
  { destruct (voting n0 && _)%bool; [|injection E as <-; apply mid_shape, still_mid, still_refl].
    apply bind_inv in E as (n1 & E1 & E). apply bind_inv in E as (n2 & E2 & E). destruct (n_out n2); [|discriminate]. injection E as <-.
    eapply mid_grew; [|exact (change_state_shape sz hmac _ _ _ _ E2)]. eapply election_mid; [| | | |exact E1]; auto; try discriminate. }
  destruct Hs as [_ S2 _ _ _ _ _ _]. intros i e He. destruct (S2 i e He) as [H|[(H1 & H2 & [[H3 _]|H3])|H]]; auto; [discriminate H3|].
  destruct H as (a1 & a2 & r & f & m' & prev & pterm & commit & es & promise & ph & i' & H & _). discriminate H.
Qed.
Lemma start_fresh group xs s : (forall g m, okx (IMember g) -> from_proto g = (m, M_OK) -> Fm m) -> NoDup (map s_id xs) ->
  Forall (fun x => s_drop x = 0%nat \/ (s_drop x < length L0)%nat) xs ->
  chained hmac L0 -> start sz hmac group M sm L0 xs = Ret s -> ginv s -> fresh s.
Proof.
  intros O2 Hnd Hd Hch0 E HI. unfold start in E. apply bind_inv in E as [p [E1 E]]. injection E as <-.
  destruct (seated_in sz hmac M sm L0 group xs p E1) as [Hids Hin]. rewrite Forall_forall in Hd. rewrite <- Hids in Hnd.
  assert (Hro : psize [] <= sm) by (cbn; lia).
  assert (Hent : forall k n A j e, In (k, (n, A)) p -> llen L0 < j -> nth_entry A j = Some e -> e_term e = n_term n /\ is_leader n = true).
  { intros k n A j e Hk Hj He. destruct (Hin _ _ _ Hk) as [x [Hx [_ [En ->]]]]. pose proof (seat_shape x group n En) as Hs.
    pose proof (gi_past _ _ _ _ _ _ HI k n _ Hk) as [HR _]. pose proof (RI_lw _ _ _ _ _ _ _ _ _ _ _ HR) as Hlw.
    destruct (seat_first sz hmac M sm L0 Fm HFM Hwf Hch0 okx O2 x group n (Hd x Hx) En) as [H1 [H2 H3]].
    assert (Hlo : 1 <= l_oldest (n_log n) /\ l_oldest (n_log n) <= llen L0 + 1) by (destruct Hlw as (X1 & X2 & _); lia).
    apply nth_regrow in He as [[Hl He]|He]; try apply Hlo; [lia|]. destruct (Hs j e He) as [H|(_ & H)]; [|exact H].
    exfalso. apply at_idx_lt in H. unfold nxt in H. cbn in H. unfold llen in *. rewrite skipn_length in H. specialize (Hd x Hx). lia. }
  constructor; cbn [w_now w_past w_soup w_taken w_rolled].
  - intros k n A j e Hk Hj He. destruct (Hent _ _ _ _ _ Hk Hj He). exists k, n, A. auto.
  - intros k n A Hl L k1 n1 A1 j e H1 Hj He Ht. apply fold_put_in in Hl. destruct (Hent _ _ _ _ _ H1 Hj He) as [X1 X2].
    assert (k1 = k) by (refine (one_leader hmac sm L0 Fm Hov okx _ k1 n1 A1 k n A HI Hro _ _ _ _ _); auto; congruence). subst k1.
    pose proof (nodup_same p k _ _ Hnd H1 Hl) as E2. injection E2 as <- <-. assumption.
  - intros k n A n0 A0 Hl H1 L. apply fold_put_in in Hl. pose proof (nodup_same p k _ _ Hnd H1 Hl) as E2. injection E2 as <- <-. right. split; [reflexivity|].
    destruct (cand n0) eqn:C; [|reflexivity]. exfalso. exact (leader_cand _ L C).
  - intros k1 n1 A1 k2 n2 A2 j e1 e2 I1 I2 Hj H1 H2 Ht. destruct (Hent _ _ _ _ _ I1 Hj H1) as [X1 X2], (Hent _ _ _ _ _ I2 Hj H2) as [Y1 Y2].
    assert (k1 = k2) by (refine (one_leader hmac sm L0 Fm Hov okx _ k1 n1 A1 k2 n2 A2 HI Hro _ _ _ _ _); auto; congruence). subst k2.
    pose proof (nodup_same p k1 _ _ Hnd I1 I2) as E2. injection E2 as <- <-. congruence.
Qed.
Lemma psize_rolled s ev : psize (w_rolled s) <= psize (w_rolled (net_step sz hmac s ev)).
Proof.
  assert (Hp : forall p l, (length l <= length (pins p l))%nat).
  { intros p l. induction l as [|q l IH]; cbn [pins]; [cbn; lia|]. destruct (bcmp p q); cbn [length]; lia. }
  assert (Ha : forall k o, w_rolled (act sz hmac k o s) = w_rolled s).
  { intros k o. unfold act. destruct (lookup k (w_now s)) as [[n A]|]; [|reflexivity]. destruct (rstep sz hmac n o) as [[n' a]|]; reflexivity. }
  destruct ev as [k o|k j ok1 ok2 rnd|k j]; cbn [net_step].
  - destruct o; rewrite ?Ha; lia.
  - destruct (nth_error (w_soup s) j) as [[from [to m]]|]; [|lia]. destruct (match to with Some p => beq p k | None => _ end); rewrite ?Ha; lia.
  - destruct (nth_error (w_past s) j) as [[k' x]|]; [|lia]. destruct (beq k' k); [|lia]. cbn [w_rolled]. unfold psize. specialize (Hp k (w_rolled s)). lia.
Qed.
Lemma run_rolled evs : forall s, incl (w_rolled s) (w_rolled (net_run sz hmac s evs)) /\ psize (w_rolled s) <= psize (w_rolled (net_run sz hmac s evs)).
Proof.
  induction evs as [|ev evs IH]; intros s; cbn [net_run fold_left]; [split; [apply incl_refl|lia]|].
  destruct (IH (net_step sz hmac s ev)) as [H1 H2]. split; [eapply incl_tran; [apply rolled_mono|exact H1]|]. pose proof (psize_rolled s ev). unfold net_run in H2. lia.
Qed.
Lemma run_fresh evs : okx INone -> (forall g m, okx (IMember g) -> from_proto g = (m, M_OK) -> Fm m) -> forall s, ginv s -> fresh s -> Forall (ev_fixed okx) evs -> unclashed (w_past (net_run sz hmac s evs)) ->
  psize (w_rolled (net_run sz hmac s evs)) <= sm -> calm (net_run sz hmac s evs) -> fresh (net_run sz hmac s evs).
Proof.
  intros O1 O2. induction evs as [|ev evs IH]; intros s HI HF Hf Hun Hr Hc; cbn [net_run fold_left] in *; [assumption|].
  inversion Hf; subst.
  assert (Hi : incl (w_past (net_step sz hmac s ev)) (w_past (net_run sz hmac (net_step sz hmac s ev) evs))) by apply run_past.
  assert (Hu : unclashed (w_past s)).
  { intros k1 n1 A1 k2 n2 A2 H3 H4. apply (Hun k1 n1 A1 k2 n2 A2); apply Hi, step_past; assumption. }
  destruct (run_rolled evs (net_step sz hmac s ev)) as [R1 R2].
  apply IH; auto.
  - eapply step_inv; eauto.
  - apply step_fresh; auto.
    + unfold net_run in R2. lia.
    + intros k n A X Y. apply (Hc k n A); [apply R1, X|apply Hi, Y].
Qed.
(* two logs with entries of one term at one place are the same up to there *)
Lemma logs_match s k1 n1 A1 k2 n2 A2 i e1 e2 : ginv s -> unclashed (w_past s) -> fresh s -> In (k1, (n1, A1)) (w_past s) -> In (k2, (n2, A2)) (w_past s) ->
  nth_entry A1 i = Some e1 -> nth_entry A2 i = Some e2 -> e_term e1 = e_term e2 -> upto i A1 = upto i A2.
Proof.
  intros HI Hun HF I1 I2 E1 E2 Ht.
  destruct (gi_past _ _ _ _ _ s HI _ _ _ I1) as [R1 _], (gi_past _ _ _ _ _ s HI _ _ _ I2) as [R2 _].
  destruct (N.le_gt_cases i (llen L0)) as [Hl|Hl].
  - assert (Hp : forall k n A, rip hmac sm L0 Fm okx (w_past s) k n A -> upto i A = upto i L0).
    { intros k n A R. pose proof (ri_k _ _ _ _ _ _ _ _ _ _ _ R) as [[c ->] _]. unfold upto, llen in *. rewrite firstn_app. replace (N.to_nat i - length L0)%nat with 0%nat by lia. cbn. apply app_nil_r. }
    rewrite (Hp _ _ _ R1), (Hp _ _ _ R2). reflexivity.
  - pose proof (fr_match s HF _ _ _ _ _ _ _ _ _ I1 I2 Hl E1 E2 Ht) as <-.
    eapply same_prefix; [apply (ri_ch _ _ _ _ _ _ _ _ _ _ _ R1)|apply (ri_ch _ _ _ _ _ _ _ _ _ _ _ R2)|exact (Hun _ _ _ _ _ _ I1 I2)|exact E1|exact E2|reflexivity].
Qed.
End Fresh.

Lemma reached_fresh sz hmac M sm (F : members -> Prop) evs s : net_reached sz hmac M sm evs s -> F M -> asked_within F evs -> overlapping sm F -> no_clash s ->
  psize (w_rolled s) <= sm -> calm s ->
  overlapping sm (wfF F) /\ wfF F M /\ (forall m, wfF F m -> wf_members m) /\ exists L0, ginv hmac sm L0 (wfF F) (within F) s /\ fresh L0 s.
Proof.
  intros [group [L0 [xs [s0 [[H1 [H2 [H3 [H4 [H5 [H6 H7]]]]]] [E ->]]]]]] HF Hev Hov Hun Hr Hc.
  destruct (moved_parts M sm F evs H1 HF Hev Hov) as (HM & Hw & Ho & Hx & Hn & Hff).
  do 3 (split; [assumption|]). exists L0.
  assert (HI : ginv hmac sm L0 (wfF F) (within F) s0) by (eapply (start_inv sz hmac M); eassumption).
  split; [eapply (run_inv sz hmac M); eauto|]. eapply (run_fresh sz hmac M sm L0 (wfF F) HM Hw Ho (within F) evs Hn Hx); eauto. eapply (start_fresh sz hmac M sm L0 (wfF F)); eauto.
Qed.
