(* Runs of one replica under arbitrary inputs. *)
From Verif Require Import RaftLog Raft RaftSpec RaftChain RaftNode Hist MembershipSpec MembershipProofs WireProofs UtilProofs.

Section Run.
Variable sz : sizes.
Variable hmac : bytes -> bytes -> bytes.

(* nothing is asked of the rest of the group *)
Definition tG (t : N) (A : list entry) (k : bytes) (p : N) : Prop := True.
Definition tW (me : bytes) (t : N) (k : bytes) : Prop := True.
Definition tL (me : bytes) (t : N) : Prop := True.
Definition tC (t : N) (X A : list entry) (c : N) : Prop := True.
Definition tK (A : list entry) : Prop := True.
Definition tMS (m : members) (u : list (N * members)) : Prop := wf_members m /\ forall i x, In (i, x) u -> wf_members x.
Definition tID (me : bytes) (sm : N) : Prop := True.
Definition tMP (Vr : bytes -> N -> Prop) (n : node) (A : list entry) (m : option bytes * rmsg) : Prop :=
  match m_body (snd m) with
  | VoteResp true => m_term (snd m) = n_term n /\ exists p, fst m = Some p /\ n_voted n = Some p /\ Vr p (m_term (snd m))
  | VoteReq _ _ _ => m_term (snd m) = n_term n /\ n_voted n = Some (n_me n)
  | _ => True
  end.
Definition ri Vr := RI hmac tG tW tL tC (tMP Vr) tK tMS tID.

Lemma ri_switch Vr Vr' n A : n_out n = [] -> ri Vr n A -> ri Vr' n A.
Proof. intros Ho []; constructor; auto. rewrite Ho; constructor. Qed.

Lemma tMSadd A e g m mm u : tK A -> tK (A ++ [e]) -> tMS mm u -> e_inner e = IMember g ->
  from_proto g = (m, M_OK) -> tMS mm (u ++ [(llen A + 1, m)]).
Proof.
  intros _ _ [H1 H2] _ Hp. split; [assumption|]. intros i x Hin. apply in_app_or in Hin as [H|[H|[]]]; [eauto|].
  injection H as _ <-. exact (from_proto_wf _ _ _ Hp).
Qed.
Lemma tMSsub m u m' u' : tMS m u -> In m' (m :: map snd u) -> incl u' u -> tMS m' u'.
Proof.
  intros [H1 H2] Hin Hi. split; [|intros i x Hx; eauto].
  destruct Hin as [<-|Hin]; [assumption|]. apply in_map_iff in Hin as [[i x] [<- Hin]]. eauto.
Qed.
Lemma tMPgrow Vr n A n' A' m : tMP Vr n A m -> grow n A n' A' -> tMP Vr n' A' m.
Proof. unfold tMP. intros H []. destruct (m_body (snd m)) as [| [|] | | | |]; auto; destruct H as [H1 H2]; (split; [congruence|]); [congruence|]; destruct H2 as [p [? [? ?]]]; exists p; repeat split; congruence || auto. Qed.

Definition op_vr (n : node) (o : rop) (Vr : bytes -> N -> Prop) : Prop :=
  match o with
  | OReceive _ _ _ from m => forall lidx lterm h, m_body m = VoteReq lidx lterm h -> up_to_date (n_log n) lidx lterm -> Vr from (m_term m)
  | _ => True
  end.
Lemma step_ok Vr n A o n' a : ri Vr n A -> n_out n = [] -> op_vr n o Vr -> rstep sz hmac n o = Ret (n', a) ->
  exists n1 A', n' = set_out [] n1 /\ a_sent a = n_out n1 /\ ri Vr n1 A' /\ EvH n A n1 A' /\
    match a_taken a with
    | None => n_applied n1 = n_applied n /\ (o = OTake -> n_commit n1 <= n_applied n1)
    | Some (i, e) => o = OTake /\ A' = A /\ i = n_applied n + 1 /\ n_applied n1 = i /\ n_applied n < n_commit n /\ nth_entry A i = Some e
    end /\
    match a_loc a with
    | Some (l, RE_OK) => exists ok rnd x, o = ORequest ok rnd x /\ is_leader n = true /\ lc_term l = n_term n /\
        lc_idx l = llen A + 1 /\ nth_entry A' (lc_idx l) = Some (Entry (lc_term l) x (lc_hash l))
    | _ => True
    end.
Proof.
  intros HR Ho Hv E.
  apply (rstep_fine sz hmac tG tW tL tC (tMP Vr) tK tMS tID Vr) with (n := n) (A := A) (o := o) (n' := n'); auto; try (intros; exact I).
  - intros. eapply tMPgrow; eassumption.
  - apply tMSadd.
  - apply tMSsub.
  - intros n1 A1 to b _ Hb. unfold tMP; cbn [snd fst m_body m_term]. destruct b as [| [|] | | | |]; auto; contradiction.
  - intros n1 A1 to _ H1 H2. unfold tMP; cbn [snd fst m_body m_term]. split; [reflexivity|]. exists to; auto.
  - destruct o; cbn [op_pre]; auto; try (intros; exact I). intros _. unfold msg_pre.
    destruct (m_body m) as [lidx lterm h| | | | |] eqn:Eb; auto; try (intros; exact I); try (split; intros; exact I).
    cbn [op_vr] in Hv. eauto.
Qed.

Definition vtrue (_ : bytes) (_ : N) : Prop := True.
Lemma op_vr_true n o : op_vr n o vtrue. Proof. destruct o; cbn; auto. intros; exact I. Qed.

Definition ok_node (n : node) (A : list entry) : Prop := ri vtrue n A /\ n_out n = [].
Lemma ri_sent Vr n A : ri Vr n A -> ok_node (set_out [] n) A.
Proof. intros H. split; [|reflexivity]. apply (ri_switch Vr); [reflexivity|]. now apply RI_sent. Qed.
Lemma EvH_sent n A n' A' : EvH n A n' A' -> EvH n A (set_out [] n') A'.
Proof. intros []; constructor; auto. Qed.
Lemma EvH_unsent n A n' A' : EvH (set_out [] n) A n' A' -> EvH n A n' A'.
Proof. intros []; constructor; auto. Qed.

Lemma regrow_same A A' l ap : stored l ap A' -> A' = A \/ (ap <= llen A /\ prefix (upto ap A) A') -> regrow A l = A'.
Proof.
  intros [d [H1 [H2 [H3 H4]]]] H. unfold regrow. rewrite H1, H2. replace (N.to_nat (1 + N.of_nat d - 1)) with d by lia.
  destruct H as [->|[Hl [c Hc]]]; [apply firstn_skipn|].
  rewrite <- (firstn_skipn d A') at 2. f_equal. destruct H4 as [->|H4]; [reflexivity|].
  rewrite Hc. rewrite firstn_app. unfold upto, llen in *. rewrite firstn_firstn, firstn_length.
  replace (Nat.min d (N.to_nat ap)) with d by lia. replace (d - Nat.min (N.to_nat ap) (length A))%nat with 0%nat by lia.
  cbn [firstn]. now rewrite app_nil_r.
Qed.
Lemma step_ok1 n A o n' a : ok_node n A -> rstep sz hmac n o = Ret (n', a) ->
  exists A', ok_node n' A' /\ EvH n A n' A' /\ A' = regrow A (n_log n') /\
    match a_taken a with
    | None => n_applied n' = n_applied n /\ (o = OTake -> n_commit n' <= n_applied n')
    | Some (i, e) => o = OTake /\ A' = A /\ i = n_applied n + 1 /\ n_applied n' = i /\ n_applied n < n_commit n /\ nth_entry A i = Some e
    end /\
    (forall t c, In (t, c) (flat_map (ballot (n_me n)) (a_sent a)) -> n_term n' = t /\ n_voted n' = Some c).
Proof.
  intros [HR Ho] E. destruct (step_ok vtrue n A o n' a HR Ho (op_vr_true n o) E) as [n1 [A' [-> [Hs [R1 [E1 [Ht _]]]]]]].
  exists A'. split; [now apply (ri_sent vtrue)|]. split; [now apply EvH_sent|].
  split.
  { symmetry. apply (regrow_same A A' (n_log n1) (n_applied n1)); [apply (ri_st _ _ _ _ _ _ _ _ _ _ _ R1)|]. destruct (a_taken a) as [[i e]|].
    - destruct Ht as [_ [-> _]]. now left.
    - right. destruct Ht as [-> _].
      pose proof (ri_ac _ _ _ _ _ _ _ _ _ _ _ HR). pose proof (ri_al _ _ _ _ _ _ _ _ _ _ _ HR).
      split; [assumption|]. eapply prefix_trans; [apply upto_le|apply (eh_keep _ _ _ _ E1)]; lia. }
  split; [exact Ht|].
  intros t c Hin. apply in_flat_map in Hin as [m [Hm Hb]]. rewrite Hs in Hm.
  pose proof (ri_out _ _ _ _ _ _ _ _ _ _ _ R1) as Hout. rewrite Forall_forall in Hout. specialize (Hout m Hm).
  unfold tMP in Hout. unfold ballot in Hb. cbn [set_out n_term n_voted].
  destruct (m_body (snd m)) as [|[|]| | | |]; try destruct Hb.
  - injection H as <- <-. rewrite <- (eh_me _ _ _ _ E1). destruct Hout as [H1 H2]. auto.
  - destruct H.
  - destruct (fst m) as [p|]; [|destruct Hb]. destruct Hb as [Hb|[]]. injection Hb as <- <-. destruct Hout as [H1 [q [H2 [H3 _]]]]. split; congruence.
Qed.

Lemma born_ok n A : born sz hmac n A -> ok_node n A.
Proof.
  intros [group [me [mem [log [cfg [committed [sm [ok [rnd [A0 [Hw [Hch [[d [H1 [H2 H3]]] [Hc [E ->]]]]]]]]]]]]]]].
  destruct (new_node_fine sz hmac tG tW tL tC (tMP vtrue) tK tMS tID vtrue) with (group := group) (me := me) (mem := mem)
    (log := log) (cfg := cfg) (committed := committed) (sm := sm) (ok := ok) (rnd := rnd) (A := A0) (d := d) (n := n)
    as [n0 [A' [[F V] [Ho [_ [_ [_ [_ [_ [_ [_ [R0 [C0 [P0 _]]]]]]]]]]]]]]; auto; try (intros; exact I).
  - intros. eapply tMPgrow; eassumption.
  - apply tMSadd.
  - apply tMSsub.
  - intros n1 A1 to b _ Hb. unfold tMP; cbn [snd fst m_body m_term]. destruct b as [| [|] | | | |]; auto; contradiction.
  - intros n1 A1 to _ G1 G2. unfold tMP; cbn [snd fst m_body m_term]. split; [reflexivity|]. exists to; auto.
  - destruct Hc as [->|Hc]; [|left; lia]. destruct H3; auto.
  - split; [assumption|intros i x []].
  - rewrite (regrow_same A0 A' (n_log n) (n_applied n)); [split; assumption|apply (ri_st _ _ _ _ _ _ _ _ _ _ _ F)|].
    right. rewrite (ev_applied _ _ _ _ V). split; [apply (ri_al _ _ _ _ _ _ _ _ _ _ _ R0)|].
    eapply prefix_trans; [apply upto_le|apply (ev_keep _ _ _ _ V)]. lia.
Qed.

Lemma exec_cons {S O R} (step : S -> O -> outcome (S * R)) s o h s' rs :
  exec step s (o :: h) = Ret (s', rs) -> exists s1 r rs1, step s o = Ret (s1, r) /\ exec step s1 h = Ret (s', rs1) /\ rs = r :: rs1.
Proof.
  cbn. destruct (step s o) as [[s1 r]|]; [|discriminate]. destruct (exec step s1 h) as [[s2 r2]|] eqn:E; [|discriminate].
  intros H; injection H as <- <-. eauto 6.
Qed.

Lemma run_ok ops : forall n A n' rs, ok_node n A -> exec (rstep sz hmac) n ops = Ret (n', rs) ->
  exists A', ok_node n' A' /\ EvH n A n' A' /\ A' = full_log sz hmac n A ops.
Proof.
  induction ops as [|o ops IH]; intros n A n' rs HR E.
  - injection E as <- _. exists A. split; [assumption|]. split; [apply EvH_refl|reflexivity].
  - apply exec_cons in E as [n1 [a [rs1 [E1 [E2 ->]]]]].
    destruct (step_ok1 n A o n1 a HR E1) as [A1 [R1 [V1 [G1 _]]]].
    destruct (IH n1 A1 n' rs1 R1 E2) as [A' [R2 [V2 G2]]]. exists A'. split; [assumption|].
    split; [eapply EvH_trans; eassumption|]. cbn [full_log]. rewrite E1, <- G1. exact G2.
Qed.
Lemma reached_ok n : reached sz hmac n -> exists A, ok_node n A.
Proof.
  intros [n0 [A0 [ops [rs [Hb E]]]]]. pose proof (born_ok n0 A0 Hb) as H0.
  destruct (run_ok ops n0 A0 n rs H0 E) as [A [H _]]. eauto.
Qed.
Lemma reached_with_ok n A : reached_with sz hmac n A -> ok_node n A.
Proof.
  intros [n0 [A0 [ops [rs [Hb [E ->]]]]]]. pose proof (born_ok n0 A0 Hb) as H0.
  destruct (run_ok ops n0 A0 n rs H0 E) as [A [H [_ <-]]]. exact H.
Qed.
Lemma ok_holds n A : ok_node n A -> holds (n_log n) A /\ chained hmac A.
Proof.
  intros [HR _]. destruct (ri_st _ _ _ _ _ _ _ _ _ _ _ HR) as [d [H1 [H2 [H3 H4]]]]. split; [|apply (ri_ch _ _ _ _ _ _ _ _ _ _ _ HR)].
  exists d. do 2 (split; [assumption|]). pose proof (ri_al _ _ _ _ _ _ _ _ _ _ _ HR) as Ha. unfold llen in Ha.
  destruct H4 as [|H4]; [auto|right; lia].
Qed.

(* C20 *)
Lemma keeps n ops n' rs : reached sz hmac n -> exec (rstep sz hmac) n ops = Ret (n', rs) ->
  n_commit n <= n_commit n' /\ n_promise n <= n_promise n' /\
  forall i e, i <= N.max (n_commit n) (n_promise n) -> at_idx (n_log n) i = Some e ->
    at_idx (n_log n') i = Some e \/ (at_idx (n_log n') i = None /\ i < n_applied n').
Proof.
  intros Hr E. destruct (reached_ok n Hr) as [A HA]. destruct (run_ok ops n A n' rs HA E) as [A' [HA' [Hev _]]].
  split; [apply Hev|]. split; [apply Hev|]. intros i e Hi He.
  destruct HA as [HR _], HA' as [HR' _].
  pose proof (st_at_some _ _ _ _ _ (ri_st _ _ _ _ _ _ _ _ _ _ _ HR) He) as Hn. pose proof (nth_entry_len _ _ _ Hn) as Hl.
  assert (Hn' : nth_entry A' i = Some e).
  { pose proof (eh_keep _ _ _ _ Hev) as [c Hk]. rewrite Hk.
    set (m := N.max (n_commit n) (n_promise n)) in *.
    assert (He2 : nth_entry (upto m A) i = Some e).
    { rewrite <- Hn. unfold nth_entry, upto. destruct (i =? 0); [reflexivity|]. symmetry.
      rewrite <- (firstn_skipn (N.to_nat m) A) at 1. apply nth_error_app1. rewrite firstn_length. unfold llen in Hl. lia. }
    pose proof (nth_entry_len _ _ _ He2) as Hl2. rewrite <- He2. unfold nth_entry. destruct (i =? 0); [reflexivity|].
    apply nth_error_app1. unfold llen in Hl2. lia. }
  destruct (st_at _ _ _ i (ri_st _ _ _ _ _ _ _ _ _ _ _ HR') ltac:(lia)) as [->|[H1 [H2 _]]]; auto.
Qed.

(* C21 *)
Lemma delivers ops : forall n A n' rs, ok_node n A -> exec (rstep sz hmac) n ops = Ret (n', rs) ->
  exists A' seg, ok_node n' A' /\ A' = full_log sz hmac n A ops /\ delivered rs = numbered (n_applied n + 1) seg /\
    n_applied n' = n_applied n + llen seg /\
    upto (n_applied n') A' = upto (n_applied n) A ++ seg.
Proof.
  induction ops as [|o ops IH]; intros n A n' rs HR E.
  - injection E as <- <-. exists A, []. split; [assumption|]. split; [reflexivity|]. split; [reflexivity|].
    split; [unfold llen; cbn; lia|now rewrite app_nil_r].
  - apply exec_cons in E as [n1 [a [rs1 [E1 [E2 ->]]]]].
    destruct (step_ok1 n A o n1 a HR E1) as [A1 [R1 [V1 [G1 [T1 _]]]]].
    destruct (IH n1 A1 n' rs1 R1 E2) as [A' [seg [R2 [V2 [D2 [N2 U2]]]]]].
    unfold delivered in *. cbn [flat_map]. rewrite D2.
    assert (Hfull : A' = full_log sz hmac n A (o :: ops)) by (cbn [full_log]; rewrite E1, <- G1; exact V2).
    pose proof (ri_ac _ _ _ _ _ _ _ _ _ _ _ (proj1 HR)) as Hac. pose proof (ri_al _ _ _ _ _ _ _ _ _ _ _ (proj1 HR)) as Hal.
    destruct (a_taken a) as [[i e]|] eqn:Et.
    + destruct T1 as [_ [-> [-> [Hap [Hlt Hn]]]]]. exists A', (e :: seg). split; [assumption|]. split; [assumption|].
      split; [cbn [app numbered]; rewrite Hap; reflexivity|]. split; [rewrite N2, Hap; unfold llen; cbn [length]; lia|].
      rewrite U2, Hap. rewrite (upto_succ _ _ _ Hn), <- app_assoc. reflexivity.
    + destruct T1 as [Hap _]. exists A', seg. split; [assumption|]. split; [assumption|]. rewrite <- Hap.
      split; [reflexivity|]. split; [assumption|]. rewrite U2. f_equal.
      pose proof (eh_keep _ _ _ _ V1) as Hk.
      assert (Hl : n_applied n <= llen (upto (N.max (n_commit n) (n_promise n)) A)).
      { unfold llen, upto in *. rewrite firstn_length. lia. }
      rewrite <- (prefix_upto_eq _ _ _ Hk) by (rewrite Hap; exact Hl). rewrite upto_upto by lia. now rewrite Hap.
Qed.

(* C22 *)
Lemma votes_run ops : forall n A n' rs, ok_node n A -> exec (rstep sz hmac) n ops = Ret (n', rs) ->
  forall t c, In (t, c) (ballots (n_me n) rs) ->
    exists m B, EvH n A m B /\ n_term m = t /\ n_voted m = Some c.
Proof.
  induction ops as [|o ops IH]; intros n A n' rs HR E t c Hin.
  - injection E as <- <-. destruct Hin.
  - apply exec_cons in E as [n1 [a [rs1 [E1 [E2 ->]]]]].
    destruct (step_ok1 n A o n1 a HR E1) as [A1 [R1 [V1 [_ [_ B1]]]]].
    unfold ballots in Hin; cbn [flat_map] in Hin. apply in_app_or in Hin as [Hin|Hin].
    + exists n1, A1. split; [assumption|]. apply B1, Hin.
    + rewrite <- (eh_me _ _ _ _ V1) in Hin. destruct (IH n1 A1 n' rs1 R1 E2 t c Hin) as [m [B [V2 H]]].
      exists m, B. split; [eapply EvH_trans; eassumption|exact H].
Qed.
Lemma one_vote ops : forall n A n' rs, ok_node n A -> exec (rstep sz hmac) n ops = Ret (n', rs) ->
  forall t c1 c2, In (t, c1) (ballots (n_me n) rs) -> In (t, c2) (ballots (n_me n) rs) -> c1 = c2.
Proof.
  induction ops as [|o ops IH]; intros n A n' rs HR E t c1 c2 H1 H2.
  - injection E as <- <-. destruct H1.
  - apply exec_cons in E as [n1 [a [rs1 [E1 [E2 ->]]]]].
    destruct (step_ok1 n A o n1 a HR E1) as [A1 [R1 [V1 [_ [_ B1]]]]].
    assert (Hlate : forall x y, In (t, x) (flat_map (ballot (n_me n)) (a_sent a)) -> In (t, y) (ballots (n_me n) rs1) -> x = y).
    { intros x y Hx Hy. destruct (B1 t x Hx) as [T1 T2]. rewrite <- (eh_me _ _ _ _ V1) in Hy.
      destruct (votes_run ops n1 A1 n' rs1 R1 E2 t y Hy) as [m [B [V2 [T3 T4]]]].
      destruct (eh_vote _ _ _ _ V2 ltac:(congruence)) as [Hn|Hn]; congruence. }
    unfold ballots in H1, H2; cbn [flat_map] in H1, H2. apply in_app_or in H1 as [H1|H1], H2 as [H2|H2].
    + destruct (B1 t c1 H1), (B1 t c2 H2). congruence.
    + exact (Hlate c1 c2 H1 H2).
    + symmetry; exact (Hlate c2 c1 H2 H1).
    + rewrite <- (eh_me _ _ _ _ V1) in H1, H2. exact (IH n1 A1 n' rs1 R1 E2 t c1 c2 H1 H2).
Qed.
Lemma grants_up_to_date n o n' a to m : reached sz hmac n -> rstep sz hmac n o = Ret (n', a) ->
  In (to, m) (a_sent a) -> m_body m = VoteResp true ->
  exists ok1 ok2 rnd from q lidx lterm h, o = OReceive ok1 ok2 rnd from q /\ to = Some from /\ m_term m = m_term q /\
    m_body q = VoteReq lidx lterm h /\ up_to_date (n_log n) lidx lterm.
Proof.
  intros Hr E Hin Hb. destruct (reached_ok n Hr) as [A [HR Ho]].
  set (Vr := fun p t => exists ok1 ok2 rnd q lidx lterm h, o = OReceive ok1 ok2 rnd p q /\ t = m_term q /\
    m_body q = VoteReq lidx lterm h /\ up_to_date (n_log n) lidx lterm).
  assert (Hv : op_vr n o Vr) by (destruct o; cbn; auto; intros; unfold Vr; eauto 12).
  destruct (step_ok Vr n A o n' a (ri_switch _ Vr _ _ Ho HR) Ho Hv E) as [n1 [A' [-> [Hs [R1 [E1 _]]]]]].
  pose proof (ri_out _ _ _ _ _ _ _ _ _ _ _ R1) as Hout. rewrite Forall_forall in Hout. rewrite Hs in Hin. specialize (Hout _ Hin).
  unfold tMP in Hout. cbn [snd fst] in Hout. rewrite Hb in Hout. destruct Hout as [H1 [p [-> [H2 H3]]]].
  destruct H3 as [ok1 [ok2 [rnd [q [lidx [lterm [h [-> [Ht [Hq Hu]]]]]]]]]]. exists ok1, ok2, rnd, p, q, lidx, lterm, h. auto.
Qed.

(* C24 *)
Lemma check_hash_eq n A i t h e : ok_node n A -> check_log_hash n i t h = Ret RE_OK -> at_idx (n_log n) i = Some e ->
  e_term e = t -> h = e_hash e.
Proof.
  intros [HR _] Hc He Ht. pose proof (ri_st _ _ _ _ _ _ _ _ _ _ _ HR) as Hst.
  pose proof (st_at_some _ _ _ _ _ Hst He) as Hn. pose proof (nth_entry_len _ _ _ Hn) as Hl.
  assert (HtA : e_term e <> 0).
  { unfold nth_entry in Hn. destruct (i =? 0); [discriminate|]. apply nth_error_In in Hn.
    apply (chained_hash_len hmac A e (ri_ch _ _ _ _ _ _ _ _ _ _ _ HR) Hn). }
  unfold check_log_hash in Hc. destruct (i =? 0) eqn:E0; [lia|].
  destruct (i <? oldest_idx (n_log n)) eqn:E1.
  { unfold oldest_idx in E1. destruct (l_entries (n_log n)); [lia|]. unfold at_idx in He. rewrite E1 in He. discriminate. }
  rewrite (st_last _ _ _ Hst (ri_al _ _ _ _ _ _ _ _ _ _ _ HR)) in Hc. destruct (llen A <? i) eqn:E2; [lia|].
  rewrite He in Hc. destruct (t =? 0) eqn:E3; [lia|]. cbn [negb andb] in Hc.
  destruct (e_term e <? t) eqn:E4; [lia|]. destruct (t <? e_term e) eqn:E5; [lia|].
  destruct (beq h (e_hash e)) eqn:E6; [now apply beq_eq|discriminate].
Qed.
Lemma check_entries_eq n A es : forall i, ok_node n A -> check_entries n es i = Ret RE_OK ->
  forall j x e, nth_error es j = Some x -> at_idx (n_log n) (i + N.of_nat j) = Some e -> e_term e = e_term x -> e_hash x = e_hash e.
Proof.
  induction es as [|y es IH]; intros i HR Hc j x e Hj He Ht; [destruct j; discriminate|].
  cbn [check_entries] in Hc. apply bind_inv in Hc as [er [E1 E2]]. destruct er; try discriminate.
  destruct j as [|j].
  - injection Hj as ->. rewrite N.add_0_r in He. eapply check_hash_eq; eauto.
  - apply (IH (i + 1) HR E2 j x e Hj); [|assumption]. rewrite <- He. f_equal; lia.
Qed.
Lemma validated_hashes n m from prev pterm commit es promise ph : reached sz hmac n ->
  m_body m = AppReq prev pterm commit es promise ph -> validate_msg m from n = Ret RE_OK ->
  (forall e, at_idx (n_log n) prev = Some e -> e_term e = pterm -> ph = e_hash e) /\
  (forall j x e, nth_error es j = Some x -> at_idx (n_log n) (prev + 1 + N.of_nat j) = Some e -> e_term e = e_term x ->
     e_hash x = e_hash e).
Proof.
  intros Hr Hb Hv. destruct (reached_ok n Hr) as [A HA]. unfold validate_msg in Hv. rewrite Hb in Hv.
  destruct (negb _); [discriminate|]. destruct (negb _); [discriminate|].
  apply bind_inv in Hv as [er [E1 E2]]. destruct er; try discriminate. cbv zeta in E2.
  repeat match type of E2 with (if ?b then _ else _) = _ => destruct b; [discriminate|] end.
  split.
  - intros e He Ht. eapply check_hash_eq; eauto.
  - eapply check_entries_eq; eauto.
Qed.
Lemma check_promise n A i t h e : ok_node n A -> check_log_hash n i t h = Ret RE_OK -> at_idx (n_log n) i = Some e ->
  i <= n_promise n -> t <= e_term e.
Proof.
  intros [HR _] Hc He Hp. destruct (e_term e <? t) eqn:E4; [|lia]. exfalso. pose proof (ri_st _ _ _ _ _ _ _ _ _ _ _ HR) as Hst.
  pose proof (st_at_some _ _ _ _ _ Hst He) as Hn. pose proof (nth_entry_len _ _ _ Hn) as Hl.
  unfold check_log_hash in Hc. destruct (i =? 0) eqn:E0; [lia|].
  destruct (i <? oldest_idx (n_log n)) eqn:E1.
  { unfold oldest_idx in E1. destruct (l_entries (n_log n)); [lia|]. unfold at_idx in He. rewrite E1 in He. discriminate. }
  rewrite (st_last _ _ _ Hst (ri_al _ _ _ _ _ _ _ _ _ _ _ HR)) in Hc. destruct (llen A <? i) eqn:E2; [lia|].
  rewrite He in Hc. destruct (t =? 0) eqn:E3; [lia|]. rewrite E4 in Hc. cbn [negb andb] in Hc.
  destruct (n_promise n <? i) eqn:E5; [lia|discriminate].
Qed.
Lemma check_entries_promise n A es : forall i, ok_node n A -> check_entries n es i = Ret RE_OK ->
  forall j x e, nth_error es j = Some x -> at_idx (n_log n) (i + N.of_nat j) = Some e -> i + N.of_nat j <= n_promise n -> e_term x <= e_term e.
Proof.
  induction es as [|y es IH]; intros i HR Hc j x e Hj He Ht; [destruct j; discriminate|].
  cbn [check_entries] in Hc. apply bind_inv in Hc as [er [E1 E2]]. destruct er; try discriminate.
  destruct j as [|j].
  - injection Hj as ->. rewrite N.add_0_r in *. eapply check_promise; eauto.
  - apply (IH (i + 1) HR E2 j x e Hj); [|lia]. rewrite <- He. f_equal; lia.
Qed.
Lemma validated_promises n m from i t : reached sz hmac n -> validate_msg m from n = Ret RE_OK ->
  names_entry m i t -> forall e, at_idx (n_log n) i = Some e -> i <= n_promise n -> t <= e_term e.
Proof.
  intros Hr Hv Hn e He Hp. destruct (reached_ok n Hr) as [A HA]. unfold validate_msg in Hv. unfold names_entry in Hn.
  destruct (negb _); [discriminate|]. destruct (negb _); [discriminate|].
  destruct (m_body m) as [lidx lterm h| |prev pterm commit es promise ph| | |]; try contradiction.
  - destruct Hn as [-> ->]. eapply check_promise; eauto.
  - apply bind_inv in Hv as [er [E1 E2]]. destruct er; try discriminate. cbv zeta in E2.
    repeat match type of E2 with (if ?b then _ else _) = _ => destruct b; [discriminate|] end.
    destruct Hn as [[-> ->]|[j [x [Hj [-> ->]]]]]; [eapply check_promise; eauto|].
    eapply check_entries_promise; eauto.
Qed.
End Run.
