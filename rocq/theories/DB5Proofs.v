From Verif Require Import DB5 DB5Spec Keyed UtilProofs WireProofs TransferProofs DBHashProofs.

Definition wf_db5 (m : db5) : Prop :=
  sorted m /\ forall k d, lookup k m = Some d -> length d = 32%nat /\ length k = 16%nat.
Definition acct_of5 (k : bytes) (m : db5) : option bytes := lookup k m.

Lemma wf_nil5 : wf_db5 [].
Proof. split; cbn; [auto|discriminate]. Qed.
Lemma wf_put5 k r m : wf_db5 m -> length r = 32%nat -> length k = 16%nat -> wf_db5 (put k r m).
Proof.
  intros [S H] Hr Hk; split; [now apply sorted_put|].
  intros k' r'; destruct (beq_spec k' k) as [->|Hne].
  - rewrite lookup_put_same; intros E; injection E as <-; auto.
  - rewrite lookup_put_other by auto; apply H.
Qed.
Lemma wf_del5 k m : wf_db5 m -> wf_db5 (del k m).
Proof.
  intros [S H]; split; [now apply sorted_del|].
  intros k' r'; destruct (beq_spec k' k) as [->|Hne].
  - now rewrite lookup_del_same.
  - rewrite lookup_del_other by auto; apply H.
Qed.
Lemma validate5_legal l : legal5 l = match validate5 l with E_OK => true | _ => false end.
Proof.
  unfold legal5, validate5, ID_SIZE5, DATA_SIZE5, PASSWORD_SIZE5.
  destruct (Nat.eqb_spec (length (l5_id l)) 16) as [Hid|]; [|reflexivity]; cbn [negb andb].
  destruct (l5_req l) as [e|e| |]; try reflexivity; destruct (Nat.eqb_spec (length e) 32); reflexivity.
Qed.

Section Proofs5.
Variable hmac : bytes -> bytes -> bytes.
Notation apply5 := (apply5 hmac). Notation exec5 := (exec5 hmac).
Notation acct_step5 := (acct_step5 hmac).

Lemma apply5_refines m i : wf_db5 m ->
  exists m' r, apply5 m i = Ret (m', r) /\ wf_db5 m' /\
  acct_step5 (acct_of5 (l5_id (i5_log i)) m) i = (acct_of5 (l5_id (i5_log i)) m', r) /\
  (forall k, k <> l5_id (i5_log i) -> acct_of5 k m' = acct_of5 k m).
Proof.
  intros WF; destruct i as [vok [id req]]; unfold DB5.apply5, DB5Spec.acct_step5;
    rewrite validate5_legal; cbn [i5_log i5_vok l5_id l5_req].
  destruct (validate5 _) eqn:EV; try (now exists m, None).
  unfold run5; rewrite EV; cbn [l5_req l5_id].
  unfold validate5 in EV; cbn [l5_id l5_req] in EV.
  unfold ID_SIZE5, DATA_SIZE5, PASSWORD_SIZE5 in *.
  destruct (Nat.eqb_spec (length id) 16) as [Hid|]; [|discriminate]; cbn [negb] in *.
  pose proof WF as [HS HW]. unfold acct_of5.
  destruct req as [d|p| |].
  - destruct (Nat.eqb_spec (length d) 32) as [Hd|]; [|discriminate]. clear EV.
    unfold upload5. set (old := match lookup id m with Some _ => _ | None => _ end).
    assert (Ho : length old = 32%nat).
    { subst old. destruct (lookup id m) eqn:E; [apply (HW _ _ E)|apply zeros_length]. }
    rewrite copy_into_ok by lia. rewrite Hd.
    replace (skipn 32 old) with (@nil N) by (symmetry; apply skipn_all2; lia). rewrite app_nil_r.
    eexists (put id d m), _; split; [reflexivity|]. split; [now apply wf_put5|].
    rewrite lookup_put_same. split; [reflexivity|]. intros; now rewrite lookup_put_other.
  - unfold download5. destruct (lookup id m) as [d|] eqn:E.
    + destruct vok; cbn [negb]; eexists m, _; (split; [reflexivity|]); rewrite E; auto.
    + eexists m, _; (split; [reflexivity|]); rewrite E; auto.
  - unfold purge5. destruct (lookup id m) as [d|] eqn:E.
    + eexists (del id m), _; split; [reflexivity|]. split; [now apply wf_del5|].
      rewrite lookup_del_same by auto. split; [reflexivity|]. intros; now rewrite lookup_del_other.
    + eexists m, _; (split; [reflexivity|]); rewrite E; auto.
  - discriminate.
Qed.

Definition key5 (i : in5) : bytes := l5_id (i5_log i).
Notation arun5 := (arun acct_step5).

Lemma exec5_ok h m : wf_db5 m -> exists m' rs, exec5 m h = Ret (m', rs) /\ wf_db5 m'.
Proof. apply (exec_ok apply5 key5 acct_of5 acct_step5 wf_db5); intros; now apply apply5_refines. Qed.
Lemma reachable_wf5 m : reachable5 hmac m -> wf_db5 m.
Proof.
  intros (h & rs & E). destruct (exec5_ok h [] wf_nil5) as (m' & rs' & E' & W). congruence.
Qed.
Lemma exec5_last h i m m' rs : wf_db5 m ->
  exec5 m (h ++ [i]) = Ret (m', rs) ->
  last rs None = snd (acct_step5 (fst (arun5 (acct_of5 (key5 i) m) (filter (for_id5 (key5 i)) h))) i) /\
  acct_of5 (key5 i) m' = fst (acct_step5 (fst (arun5 (acct_of5 (key5 i) m) (filter (for_id5 (key5 i)) h))) i).
Proof.
  intros WF H.
  destruct (exec_project_last apply5 key5 acct_of5 acct_step5 wf_db5
              ltac:(intros; now apply apply5_refines) h i m m' rs WF H) as [rs0 [r [-> E]]].
  change (mine key5) with for_id5 in E.
  rewrite E, last_last; auto.
Qed.
Lemma fst_arun_cons5 a i h : fst (arun5 a (i :: h)) = fst (arun5 (fst (acct_step5 a i)) h).
Proof. cbn; destruct (acct_step5 a i) as [a1 r]; cbn; destruct (arun5 a1 h); reflexivity. Qed.
Lemma fst_arun_app5 a h1 h2 : fst (arun5 a (h1 ++ h2)) = fst (arun5 (fst (arun5 a h1)) h2).
Proof. rewrite arun_app; destruct (arun5 a h1) as [a1 r]; cbn; destruct (arun5 a1 h2); reflexivity. Qed.
Lemma filter_for_all5 id h i : In i (filter (for_id5 id) h) -> for_id5 id i = true.
Proof. intros H; apply filter_In in H; tauto. Qed.

Lemma step_keep5 id i a : for_id5 id i = true -> is_upload5 id i = false -> is_purge5 id i = false ->
  fst (acct_step5 a i) = a.
Proof.
  intros Hf Hc Hr; unfold is_upload5, is_purge5 in *; rewrite Hf in *; unfold DB5Spec.acct_step5.
  destruct (legal5 (i5_log i)); [|reflexivity]. cbn [andb] in *.
  destruct (l5_req (i5_log i)); cbn [fst]; congruence.
Qed.
Lemma step_none5 id i : for_id5 id i = true -> is_upload5 id i = false -> fst (acct_step5 None i) = None.
Proof.
  intros Hf Hc; unfold is_upload5 in *; rewrite Hf in *; unfold DB5Spec.acct_step5.
  destruct (legal5 (i5_log i)); [|reflexivity]. cbn [andb] in *.
  destruct (l5_req (i5_log i)); cbn [fst]; congruence.
Qed.
Lemma arun_keep5 id h a : (forall i, In i h -> for_id5 id i = true) ->
  none_of (is_upload5 id) h -> (a = None \/ none_of (is_purge5 id) h) -> fst (arun5 a h) = a.
Proof.
  induction h as [|i h IH]; intros Hf Hc Hp; [reflexivity|].
  apply none_of_cons in Hc as [Hc Hc'].
  assert (Hi : for_id5 id i = true) by (apply Hf; cbn; auto).
  assert (Hf' : forall j, In j h -> for_id5 id j = true) by (intros; apply Hf; cbn; auto).
  rewrite fst_arun_cons5. destruct Hp as [->|Hp].
  - rewrite (step_none5 id) by auto. apply IH; auto.
  - apply none_of_cons in Hp as [Hp Hp']. rewrite (step_keep5 id) by auto. apply IH; auto.
Qed.

Lemma download_answer5 h0 h1 id d vu v p m rs :
  legal5 (Log5 id (Upload5 d)) = true -> legal5 (Log5 id (Download5 p)) = true ->
  none_of (is_upload5 id) h1 -> none_of (is_purge5 id) h1 ->
  exec5 [] (h0 ++ In5 vu (Log5 id (Upload5 d)) :: h1 ++ [In5 v (Log5 id (Download5 p))]) = Ret (m, rs) ->
  last_answer rs = Some (if v then RspDownload5 S5_OK (hmac d p) else RspDownload5 S5_MERKLE_FAILURE []).
Proof.
  intros L Le Hc Hr H. set (i := In5 v _) in *. set (b := In5 vu _) in *.
  replace (h0 ++ b :: h1 ++ [i]) with ((h0 ++ b :: h1) ++ [i]) in H by (rewrite <- app_assoc; reflexivity).
  apply exec5_last in H as [H _]; [|apply wf_nil5].
  change (key5 i) with id in H. unfold last_answer; rewrite H.
  rewrite filter_app, fst_arun_app5. cbn [filter].
  assert (F : for_id5 id b = true) by (unfold for_id5; cbn; apply beq_refl).
  rewrite F, fst_arun_cons5.
  assert (ES : forall a0, fst (acct_step5 a0 b) = Some d).
  { intros; unfold DB5Spec.acct_step5, b; cbn [i5_log l5_req]; now rewrite L. }
  rewrite ES, (arun_keep5 id).
  - unfold DB5Spec.acct_step5, i; cbn [i5_log i5_vok l5_req]. rewrite Le. reflexivity.
  - intros; eapply filter_for_all5; eauto.
  - now apply none_of_filter.
  - right; now apply none_of_filter.
Qed.

Lemma arun_history5 id h d :
  (forall i, In i h -> for_id5 id i = true) -> fst (arun5 None h) = Some d ->
  exists ha v hb, h = ha ++ In5 v (Log5 id (Upload5 d)) :: hb /\
    legal5 (Log5 id (Upload5 d)) = true /\ none_of (is_upload5 id) hb /\ none_of (is_purge5 id) hb.
Proof.
  revert d; induction h as [|i h IH] using rev_ind; intros d Hf H; [discriminate|].
  rewrite fst_arun_app5 in H; cbn [arun] in H.
  assert (Hf' : forall i, In i h -> for_id5 id i = true) by (intros; apply Hf, in_app_iff; auto).
  assert (Hi : for_id5 id i = true) by (apply Hf, in_app_iff; cbn; auto).
  set (a := fst (arun5 None h)) in *.
  assert (H' : fst (acct_step5 a i) = Some d) by (destruct (acct_step5 a i); exact H). clear H.
  destruct (is_upload5 id i) eqn:EC.
  - unfold is_upload5 in EC. rewrite Hi in EC. unfold DB5Spec.acct_step5 in H'.
    destruct i as [v [id' req]]; cbn [i5_log l5_id l5_req i5_vok] in *.
    apply beq_eq in Hi; cbn in Hi; subst id'.
    destruct (legal5 (Log5 id req)) eqn:EL; [|discriminate]. cbn [andb] in EC.
    destruct req as [d0|e| |]; try discriminate. cbn in H'; injection H' as ->.
    exists h, v, []. split; [reflexivity|]. repeat split; auto; intros ? [].
  - destruct (is_purge5 id i) eqn:ER.
    { unfold is_purge5 in ER; rewrite Hi in ER. unfold DB5Spec.acct_step5 in H'.
      destruct (legal5 (i5_log i)); [|discriminate]. destruct (l5_req (i5_log i)); discriminate. }
    rewrite (step_keep5 id) in H' by auto.
    destruct (IH d Hf' H') as (ha & v & hb & -> & L & N1 & N2).
    exists ha, v, (hb ++ [i]). split; [now rewrite <- app_assoc|].
    split; [exact L|].
    split; apply none_of_app; split; auto; apply none_of_cons; split; auto; intros ? [].
Qed.

Lemma download_ok_history5 h id p v m rs out :
  exec5 [] (h ++ [In5 v (Log5 id (Download5 p))]) = Ret (m, rs) ->
  last_answer rs = Some (RspDownload5 S5_OK out) ->
  exists h0 vu d h1, h = h0 ++ In5 vu (Log5 id (Upload5 d)) :: h1 /\
    legal5 (Log5 id (Upload5 d)) = true /\
    none_of (is_upload5 id) h1 /\ none_of (is_purge5 id) h1 /\ out = hmac d p.
Proof.
  intros H Hl. set (i := In5 v _) in *.
  apply exec5_last in H as [H1 _]; [|apply wf_nil5]. change (key5 i) with id in H1.
  unfold last_answer in Hl; rewrite Hl in H1; clear Hl.
  change (acct_of5 id []) with (@None bytes) in H1.
  destruct (fst (arun5 None (filter (for_id5 id) h))) as [d|] eqn:EA.
  2:{ unfold DB5Spec.acct_step5 in H1; subst i; cbn [i5_log l5_req] in H1. destruct (legal5 _); discriminate. }
  destruct (arun_history5 id _ _ ltac:(intros; eapply filter_for_all5; eauto) EA)
    as (ha & vc & hb & Eh & L & N1 & N2).
  destruct (filter_split _ _ _ _ _ Eh) as (h0 & h1 & Eh1 & F1 & F2). subst h hb.
  apply none_of_unfilter in N1; [|unfold is_upload5; intros x; now destruct (for_id5 id x)].
  apply none_of_unfilter in N2; [|unfold is_purge5; intros x; now destruct (for_id5 id x)].
  exists h0, vc, d, h1. repeat (split; [auto|]).
  unfold DB5Spec.acct_step5 in H1; subst i; cbn [i5_log i5_vok l5_req] in H1.
  destruct (legal5 _); [|discriminate]. destruct v; [|discriminate]. cbn [snd] in H1. congruence.
Qed.

Lemma isolation5 id h m1 rs1 m2 rs2 :
  exec5 [] h = Ret (m1, rs1) -> exec5 [] (filter (for_id5 id) h) = Ret (m2, rs2) ->
  rs2 = map snd (filter (fun p => for_id5 id (fst p)) (combine h rs1)) /\
  acct_of5 id m2 = acct_of5 id m1.
Proof.
  apply (exec_noninterference apply5 key5 acct_of5 acct_step5 wf_db5
     ltac:(intros; now apply apply5_refines) h [] id m1 rs1 m2 rs2 wf_nil5).
Qed.

Lemma purged_stays5 h0 h1 id vd i m rs :
  length id = 16%nat -> none_of (is_upload5 id) h1 ->
  for_id5 id i = true -> is_upload5 id i = false ->
  exec5 [] (h0 ++ In5 vd (Log5 id Purge5) :: h1 ++ [i]) = Ret (m, rs) ->
  last_answer rs = (if legal5 (i5_log i) then
    match l5_req (i5_log i) with
    | Download5 _ => Some (RspDownload5 S5_MISSING [])
    | Purge5 => Some RspPurge5
    | Upload5 _ | Unset5 => None end else None) /\ lookup id m = None.
Proof.
  intros Lid Hb Fi Hbi H. set (b := In5 vd _) in *.
  replace (h0 ++ b :: h1 ++ [i]) with ((h0 ++ b :: h1) ++ [i]) in H
    by (rewrite <- app_assoc; reflexivity).
  apply exec5_last in H as [H Hm]; [|apply wf_nil5].
  assert (Ek : key5 i = id) by (now apply beq_eq). rewrite Ek in H, Hm.
  rewrite filter_app, fst_arun_app5 in H, Hm.
  assert (F : for_id5 id b = true) by (unfold for_id5; cbn; apply beq_refl).
  cbn [filter] in H, Hm; rewrite F, fst_arun_cons5 in H, Hm.
  assert (E0 : forall a0, fst (acct_step5 a0 b) = None).
  { intros; unfold DB5Spec.acct_step5; subst b; cbn [i5_log i5_vok l5_req]; unfold legal5; cbn [l5_id l5_req].
    rewrite Lid; reflexivity. }
  rewrite E0, (arun_keep5 id) in H, Hm; auto; try (now apply none_of_filter); try (intros; eapply filter_for_all5; eauto).
  rewrite (step_none5 id) in Hm by auto. split; [|exact Hm].
  unfold last_answer; rewrite H. unfold is_upload5 in Hbi; rewrite Fi in Hbi. unfold DB5Spec.acct_step5.
  destruct (legal5 (i5_log i)) eqn:EL; [|reflexivity]. cbn [andb] in Hbi.
  destruct (l5_req (i5_log i)); try reflexivity. discriminate.
Qed.

Lemma no_crash5 m v l : reachable5 hmac m -> validate5 l = E_OK -> run5 hmac m v l <> Crash.
Proof.
  intros HR HV HC. apply reachable_wf5 in HR.
  destruct (apply5_refines m (In5 v l) HR) as (m' & r & E & _).
  unfold DB5.apply5 in E; cbn [i5_log i5_vok] in E. rewrite HV, HC in E; discriminate.
Qed.
End Proofs5.

(* --- transfer --- *)
Lemma parse_row_of_db5 k d : length d = 32%nat -> length k = 16%nat ->
  parse_row5 (ser_row5 (PRow5 k d)) = Some (PRow5 k d).
Proof.
  intros Hd Hk. assert (P64 : 2^64 = 18446744073709551616) by reflexivity.
  unfold parse_row5, ser_row5. cbn [p5_id p5_data].
  assert (P2 : 1 < 2 ^ 29 /\ 5 < 2 ^ 29) by (split; reflexivity).
  rewrite parse_ser by (repeat (apply Forall_app; split); (apply ob_ok || apply ov_ok); unfold blen; lia).
  wire_get. destruct k, d; try discriminate; reflexivity.
Qed.

Lemma load_row5_ok m s :
  (exists m' id, load_row5 m s = (m', E_OK, id)) <->
  exists p, parse_row5 s = Some p /\ row_msg_ok5 p = true /\
            (forall k, last_key m = Some k -> blt k (p5_id p) = true).
Proof.
  unfold load_row5, row_msg_ok5, DATA_SIZE5, ID_SIZE5.
  destruct (parse_row5 s) as [p|]; [|split; [intros (? & ? & ?); discriminate|intros (? & ? & _); discriminate]].
  split.
  - intros (m' & id & H). exists p. split; [reflexivity|].
    destruct (length (p5_data p) =? 32)%nat eqn:E4; cbn [negb] in H; [|discriminate].
    destruct (length (p5_id p) =? 16)%nat eqn:E2; cbn [negb] in H; [|discriminate].
    destruct (match last_key m with Some _ => _ | None => _ end) eqn:E3; [discriminate|].
    split; [lia|]. intros k Hk; rewrite Hk in E3.
    rewrite ble_nblt in E3. now destruct (blt k (p5_id p)).
  - intros (p' & E & H1 & H2). injection E as <-.
    destruct (length (p5_data p) =? 32)%nat eqn:E4; cbn [negb]; [|lia].
    destruct (length (p5_id p) =? 16)%nat eqn:E2; cbn [negb]; [|lia].
    destruct (last_key m) as [k|]; [|eauto].
    specialize (H2 k eq_refl). rewrite ble_nblt, H2. cbn; eauto.
Qed.

Lemma load_row5_res m s m' id : sorted m -> load_row5 m s = (m', E_OK, id) ->
  exists p, parse_row5 s = Some p /\ row_msg_ok5 p = true /\ id = p5_id p /\
    (forall k v, In (k, v) m -> blt k (p5_id p) = true) /\
    m' = m ++ [(p5_id p, p5_data p)].
Proof.
  intros S H. assert (HE : exists m' id, load_row5 m s = (m', E_OK, id)) by eauto.
  apply load_row5_ok in HE as (p & EP & H1 & H2). exists p. split; [exact EP|]. split; [exact H1|].
  assert (HB : forall k v, In (k, v) m -> blt k (p5_id p) = true).
  { intros k v Hin. destruct (last_key m) as [lk|] eqn:EL.
    - specialize (H2 lk eq_refl). destruct (last_key_max _ _ S EL k v Hin) as [->|Hlt]; [exact H2|].
      eapply blt_trans; eauto.
    - apply last_key_none in EL; subst m; contradiction. }
  revert H; unfold load_row5; rewrite EP.
  destruct (negb _); [discriminate|].
  destruct (negb _); [discriminate|].
  destruct (match last_key m with Some _ => _ | None => _ end); [discriminate|].
  intros H; injection H as <- <-. split; [reflexivity|]. split; [exact HB|].
  now rewrite put_above_last by exact HB.
Qed.

Lemma transfer5_lossless m sizes : wf_db5 m ->
  Forall (fun n => (0 < n)%nat) sizes -> (length m <= total sizes)%nat ->
  transfer (rows_as_protos5 m) load_rows5 [] [] sizes = Ret (m, E_OK).
Proof.
  intros [S W] HF Hle.
  assert (W' : forall k v, In (k, v) m -> length v = 32%nat /\ length k = 16%nat)
    by (intros; apply W; now apply in_lookup).
  destruct (transfer_ok m (fun id d => ser_row5 (PRow5 id d)) (fun d pre => d = pre) true
     (@length _) load_row5 S (fun k v H => proj2 (W' k v H))) with (dst := @nil (bytes * bytes)) (sizes := sizes)
     as (d & E & HR); auto.
  2:{ rewrite HR in E; exact E. }
  intros dst pre k v post -> Em.
  assert (Hin : In (k, v) m) by (rewrite Em; apply in_or_app; right; now left).
  destruct (W' _ _ Hin) as [Wv Hk].
  assert (Sp : sorted pre) by (rewrite Em in S; apply sorted_app in S; tauto).
  assert (HE : exists m' id, load_row5 pre (ser_row5 (PRow5 k v)) = (m', E_OK, id)).
  { apply load_row5_ok. exists (PRow5 k v). split; [now apply parse_row_of_db5|].
    split. { unfold row_msg_ok5; cbn [p5_id p5_data]; lia. }
    cbn [p5_id].
    intros k0 Hl. apply last_key_in in Hl as [v0 Hv0].
    rewrite Em in S; apply sorted_app in S as (_ & _ & HA). specialize (HA k0 v0 Hv0). cbn in HA; tauto. }
  destruct HE as (m' & id & HE). exists m'.
  destruct (load_row5_res _ _ _ _ Sp HE) as (p & EP & _ & Eid & _ & Em').
  rewrite parse_row_of_db5 in EP by auto. injection EP as <-. cbn [p5_id p5_data] in *.
  subst m' id. split; [exact HE|]. split; [reflexivity|]. rewrite app_length; cbn; lia.
Qed.

Lemma load_only_good5 m rows m' last : sorted m -> load_rows5 m rows = Ret (m', last, E_OK) ->
  exists ps, map parse_row5 rows = map Some ps /\ forallb row_msg_ok5 ps = true /\
    m' = m ++ map (fun p => (p5_id p, p5_data p)) ps /\ sorted m'.
Proof.
  intros S H. apply load_accepted in H as [H _]. induction H as [s|s r s1 id rows s2 E H IH].
  - exists []; cbn; rewrite app_nil_r; auto.
  - destruct (load_row5_res _ _ _ _ S E) as (p & EP & HP & _ & HB & ->).
    assert (S1 : sorted (s ++ [(p5_id p, p5_data p)])).
    { apply sorted_app; split; [exact S|]. split; [cbn; auto|]. intros k v Hin; cbn; split; auto. eapply HB; eauto. }
    destruct (IH S1) as (ps & E1 & E2 & E3 & E4).
    exists (p :: ps); cbn. rewrite EP, E1, HP, E2. split; [reflexivity|]. split; [reflexivity|].
    split; [rewrite E3, <- app_assoc; reflexivity|exact E4].
Qed.

Lemma row_size5 k d : length d = 32%nat -> length k = 16%nat ->
  length (ser_row5 (PRow5 k d)) = 52%nat.
Proof.
  intros Hd Hk. unfold ser_row5; cbn [p5_id p5_data].
  rewrite !ser_msg_app, !app_length.
  rewrite !ser_ob_length by (try lia; rewrite ?Hk, ?Hd; lia). rewrite Hk, Hd. reflexivity.
Qed.

Lemma hash5_collision sip16 sha256 m1 m2 : (forall x, length (sip16 x) = 16%nat) ->
  wf_db5 m1 -> wf_db5 m2 ->
  hash5 sip16 sha256 m1 = hash5 sip16 sha256 m2 ->
  m1 = m2 \/ collision sip16 \/ collision sha256.
Proof.
  intros HL W1 W2 E. destruct (db_hash_inj _ _ _ _ HL E) as [Em|]; [|auto].
  left. destruct W1 as [S1 W1], W2 as [S2 W2].
  assert (V1 : forall k v, In (k, v) m1 -> length v = 32%nat /\ length k = 16%nat) by (intros; apply W1; now apply in_lookup).
  assert (V2 : forall k v, In (k, v) m2 -> length v = 32%nat /\ length k = 16%nat) by (intros; apply W2; now apply in_lookup).
  clear - Em V1 V2. revert m2 Em V2; induction m1 as [|[k1 r1] m1 IH]; intros [|[k2 r2] m2] E V2; try discriminate; auto.
  cbn [map fst snd] in E.
  assert (E1 := f_equal (hd []) E). assert (E2 := f_equal (@tl _) E). cbn [hd tl] in E1, E2. clear E.
  destruct (V1 k1 r1 (or_introl eq_refl)) as [R1 L1], (V2 k2 r2 (or_introl eq_refl)) as [R2 L2].
  unfold hashrow_bytes5 in E1.
  apply app_len_inj in E1 as [-> ->]; [|congruence].
  f_equal. apply IH; auto; intros; [eapply V1|eapply V2]; right; eauto.
Qed.
