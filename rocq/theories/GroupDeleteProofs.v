(* Proofs: removal by the host. *)
From Verif Require Import RaftNetSpec CoreTxSpec GroupSpec GroupDeleteSpec GroupDoneProofs ReqWireProofs ReqWireSpec HostWeb
  DB2 DB2Spec DB2Proofs DB3 DB4 DB4Spec DB4Proofs DB5.

Lemma removed_generic {D E} sz hmac (apply : D -> bytes -> D * option E) respond min_voting (Good gone : D -> Prop) (harm : entry -> Prop)
  M sm L0 db0 evs (g : group D E) k id request d entry_of :
  (forall db e, Good db -> Good (fst (run_one apply db e))) ->
  (forall db e, Good db -> gone db -> ~ harm e -> gone (fst (run_one apply db e))) ->
  (forall db, Good db -> gone (fst (apply db d))) ->
  group_reached sz hmac apply respond min_voting M sm L0 db0 evs g -> gchanges_overlap M sm evs -> gno_clash g -> psize (g_rolled D E g) <= sm -> Good db0 ->
  ~ In k (g_rolled D E g) -> host_told_done g entry_of id request k d -> removed_by apply g k d gone harm.
Proof.
  intros H1 H2 H3 Hg Hf Hn Hr G0 Hk (_ & q & _ & Ha & Hs).
  destruct (done_after sz hmac apply respond min_voting Good gone harm H1 H2 M sm L0 db0 evs g k q d SDone Hg Hf Hn Hr G0 H3 Hk Ha Hs I) as (i & e0 & eff0 & X1 & X2 & X3 & X4).
  exists i, e0, eff0. split; [assumption|]. split; [assumption|]. split.
  - intros k' s A Hw Hi Hh. apply (X3 k' s A Hw Hi Hh).
  - intros k' j e eff Ht Hi Hh. destruct (X4 k' j e eff Ht Hi Hh) as (db & _ & Y1 & Y2). eauto.
Qed.
Lemma delete_entry2 id d : host_entry2 id delete_request = Some d -> length id = 16%nat /\ parse_log2 d = Some (Log2 id Delete).
Proof.
  unfold host_entry2, host_entry. change (parse_req2 delete_request) with (Some Delete). unfold log_from_request2, BACKUP_ID_SIZE.
  destruct (Nat.eqb_spec (length id) 16) as [El|]; cbn [negb]; [|discriminate]. intros H. injection H as <-. split; [assumption|].
  apply log2_roundtrip; cbn [l_id l_req]; [unfold str_fits, blen; rewrite El; reflexivity|exact I].
Qed.
Lemma delete_entry4 id d : host_entry4 id delete_request = Some d -> length id = 16%nat /\ parse_log4 d = Some (Log4 id Remove4).
Proof.
  unfold host_entry4, host_entry. change (parse_req4 delete_request) with (Some Remove4). unfold log_from_request4, ID_SIZE4.
  destruct (Nat.eqb_spec (length id) 16) as [El|]; cbn [negb]; [|discriminate]. intros H. injection H as <-. split; [assumption|].
  apply log4_roundtrip; cbn [l4_id l4_req]; [unfold str_fits, blen; rewrite El; reflexivity|exact I].
Qed.

(* --- SVR2 ----------------------------------------------------------------------- *)
Lemma gone2 id m : lookup id m = None <-> acct_of id m = NoAcct.
Proof. unfold acct_of. destruct (lookup id m) as [r|]; [|tauto]. unfold acct_of_row. split; intros; try discriminate. Qed.
Lemma apply_db2_ok m d : wf_db m -> wf_db (fst (apply_db2 parse_log2 m d)) /\
  forall id, acct_of id (fst (apply_db2 parse_log2 m d)) =
    match parse_log2 d with Some l => if beq (l_id l) id then fst (acct_step (acct_of id m) (In2 true l)) else acct_of id m | None => acct_of id m end.
Proof.
  intros W. unfold apply_db2. destruct (parse_log2 d) as [l|]; [|auto].
  destruct (apply2_refines m (In2 true l) W) as (m' & r & Ea & W' & Hs & Ho). rewrite Ea. cbn [fst]. split; [assumption|]. intros id. cbn [i_log] in *.
  destruct (beq (l_id l) id) eqn:Eb; [apply beq_eq in Eb; subst id; now rewrite Hs|]. apply Ho. apply beq_neq in Eb. congruence.
Qed.
Lemma removed2 sz hmac respond min_voting M sm L0 db0 evs (g : group db2 resp2) k id d :
  reachable2 db0 -> group_reached sz hmac (apply_db2 parse_log2) respond min_voting M sm L0 db0 evs g -> gchanges_overlap M sm evs -> gno_clash g ->
  psize (g_rolled db2 resp2 g) <= sm -> ~ In k (g_rolled db2 resp2 g) -> host_told_done g host_entry2 id delete_request k d ->
  removed_by (apply_db2 parse_log2) g k d (fun db => lookup id db = None) (makes2 id).
Proof.
  intros (h & rs & Ex) Hg Hf Hn Hr Hk Hd. assert (W0 : wf_db db0).
  { destruct (exec2_ok h [] wf_nil) as (m' & rs' & E1 & W). rewrite Ex in E1. injection E1 as -> _. exact W. }
  destruct (delete_entry2 id d (proj1 Hd)) as [Hid Hp].
  eapply (removed_generic sz hmac _ respond min_voting wf_db); try eassumption.
  - intros db e W. unfold run_one. destruct (e_inner e); auto. now apply apply_db2_ok.
  - intros db e W Hgo Hm. apply gone2. apply gone2 in Hgo. unfold run_one. destruct (e_inner e) as [|x| |] eqn:Ee; auto.
    rewrite (proj2 (apply_db2_ok db x W)). destruct (parse_log2 x) as [l|] eqn:Ep; [|assumption]. destruct (beq (l_id l) id) eqn:Eb; [|assumption].
    apply beq_eq in Eb. rewrite Hgo. unfold acct_step. cbn [i_log]. destruct (legal l); [|reflexivity]. destruct (l_req l) eqn:Er; try reflexivity.
    exfalso. apply Hm. exists data, pin, max_tries, x. split; [assumption|]. rewrite Ep. destruct l; cbn in *. now subst.
  - intros db W. apply gone2. rewrite (proj2 (apply_db2_ok db d W)), Hp. cbn [l_id]. rewrite (proj2 (beq_eq id id) eq_refl). unfold acct_step. cbn [i_log].
    assert (Hl : legal (Log2 id Delete) = true) by (unfold legal; cbn; now rewrite Hid). rewrite Hl. reflexivity.
Qed.

(* --- SVR4 ----------------------------------------------------------------------- *)
Lemma gone4 id m : lookup id (rows4 m) = None <-> account4 id m = None.
Proof. unfold account4. destruct (lookup id (rows4 m)) as [r|]; [|tauto]. split; intros; discriminate. Qed.
Lemma apply_db4_ok c m d : wf_db4 m -> wf_db4 (fst (apply_db4 c m d)) /\
  forall id, account4 id (fst (apply_db4 c m d)) =
    match parse_log4 d with Some l => if beq (l4_id l) id then fst (acct_step4 c (account4 id m) (In4 true l)) else account4 id m | None => account4 id m end.
Proof.
  intros W. unfold apply_db4, apply_db. destruct (parse_log4 d) as [l|]; [|auto].
  destruct (apply4_refines c m (In4 true l) W) as (m' & r & Ea & W' & Hs & Ho). rewrite Ea. cbn [fst]. split; [assumption|]. intros id. cbn [i4_log] in *.
  destruct (beq (l4_id l) id) eqn:Eb; [apply beq_eq in Eb; subst id; now rewrite Hs|]. apply Ho. apply beq_neq in Eb. congruence.
Qed.
Lemma removed4 sz hmac c respond min_voting M sm L0 db0 evs (g : group db4 eff4) k id d :
  reachable4 c db0 -> group_reached sz hmac (apply_db4 c) respond min_voting M sm L0 db0 evs g -> gchanges_overlap M sm evs -> gno_clash g ->
  psize (g_rolled db4 eff4 g) <= sm -> ~ In k (g_rolled db4 eff4 g) -> host_told_done g host_entry4 id delete_request k d ->
  removed_by (apply_db4 c) g k d (fun db => lookup id (rows4 db) = None /\ lookup id (rots4 db) = None) (makes4 id).
Proof.
  intros Hre Hg Hf Hn Hr Hk Hd. pose proof (reachable_wf4 c db0 Hre) as W0.
  destruct (delete_entry4 id d (proj1 Hd)) as [Hid Hp].
  assert (Hboth : forall m, wf_db4 m -> lookup id (rows4 m) = None -> lookup id (rots4 m) = None).
  { intros m (_ & _ & W & _). apply W. }
  eapply (removed_generic sz hmac _ respond min_voting wf_db4); try eassumption.
  - intros db e W. unfold run_one. destruct (e_inner e); auto. now apply apply_db4_ok.
  - intros db e W [Hgo _] Hm. enough (Hx : lookup id (rows4 (fst (run_one (apply_db4 c) db e))) = None).
    { split; [assumption|]. apply Hboth; [|assumption]. unfold run_one. destruct (e_inner e); auto. now apply apply_db4_ok. }
    apply gone4. apply gone4 in Hgo. unfold run_one. destruct (e_inner e) as [|x| |] eqn:Ee; auto.
    rewrite (proj2 (apply_db4_ok c db x W)). destruct (parse_log4 x) as [l|] eqn:Ep; [|assumption]. destruct (beq (l4_id l) id) eqn:Eb; [|assumption].
    apply beq_eq in Eb. rewrite Hgo. unfold acct_step4. cbn [i4_log]. destruct (legal4 c l); [|reflexivity]. destruct (l4_req l) eqn:Er; try reflexivity.
    exfalso. apply Hm. do 6 eexists. exists x. split; [assumption|]. rewrite Ep. destruct l; cbn in *. now subst.
  - intros db W. enough (Hx : lookup id (rows4 (fst (apply_db4 c db d))) = None).
    { split; [assumption|]. apply Hboth; [|assumption]. now apply apply_db4_ok. }
    apply gone4. rewrite (proj2 (apply_db4_ok c db d W)), Hp. cbn [l4_id]. rewrite (proj2 (beq_eq id id) eq_refl). unfold acct_step4. cbn [i4_log].
    assert (Hl : legal4 c (Log4 id Remove4) = true) by (unfold legal4; cbn; now rewrite Hid). rewrite Hl. reflexivity.
Qed.
(* --- what the other stores make of the host's request -------------------------------- *)
Lemma delete_entry3 key id : length id = 16%nat -> host_entry3 key id delete_request = Some (ser_log3 (Log3 id Query3 [])).
Proof. intros H. unfold host_entry3, host_entry. change (parse_req3 delete_request) with (Some Query3). unfold log_from_request3, ID_SIZE3. now rewrite H. Qed.
Lemma delete_entry5 id : length id = 16%nat -> host_entry5 id delete_request = Some (ser_log5 (Log5 id Unset5)).
Proof. intros H. unfold host_entry5, host_entry. change (parse_req5 delete_request) with (Some Unset5). unfold log_from_request5, ID_SIZE5. now rewrite H. Qed.
Lemma delete_keeps3 smul key id d db : host_entry3 key id delete_request = Some d -> fst (apply_db3 smul db d) = db.
Proof.
  destruct (Nat.eqb_spec (length id) 16) as [El|Hn].
  2: { unfold host_entry3, host_entry. change (parse_req3 delete_request) with (Some Query3). unfold log_from_request3, ID_SIZE3. apply Nat.eqb_neq in Hn. rewrite Hn. discriminate. }
  rewrite (delete_entry3 key id El). intros H. injection H as <-. unfold apply_db3, apply_db.
  rewrite log3_roundtrip by (try exact I; unfold str_fits, blen; cbn [l3_id l3_priv]; rewrite ?El; reflexivity).
  unfold apply3. cbn [i3_log]. unfold run3. destruct (validate3 _); try reflexivity. cbn [l3_id l3_req]. unfold to_array. rewrite El. cbn.
  unfold query3. destruct (lookup id db); reflexivity.
Qed.
Lemma delete_keeps5 hm id d db : host_entry5 id delete_request = Some d -> apply_db5 hm db d = (db, None).
Proof.
  destruct (Nat.eqb_spec (length id) 16) as [El|Hn].
  2: { unfold host_entry5, host_entry. change (parse_req5 delete_request) with (Some Unset5). unfold log_from_request5, ID_SIZE5. apply Nat.eqb_neq in Hn. rewrite Hn. discriminate. }
  rewrite (delete_entry5 id El). intros H. injection H as <-. unfold apply_db5, apply_db.
  rewrite log5_roundtrip by (try exact I; unfold str_fits, blen; cbn [l5_id]; rewrite ?El; reflexivity).
  unfold apply5. cbn [i5_log]. unfold validate5. cbn [l5_id l5_req]. rewrite El. reflexivity.
Qed.
