From Verif Require Import DB3 DB3Spec Keyed UtilProofs WireProofs TransferProofs DBHashProofs.

Definition wf_row3 (r : row3) : Prop := length (r3_priv r) = 32%nat /\ 1 <= r3_tries r <= 255.
Definition wf_db3 (m : db3) : Prop :=
  sorted m /\ forall k r, lookup k m = Some r -> wf_row3 r /\ length k = 16%nat.
Definition acct_of3 (k : bytes) (m : db3) : acct3 :=
  match lookup k m with None => NoAcct3 | Some r => Acct3 (r3_priv r) (r3_tries r) end.

Lemma wf_nil3 : wf_db3 [].
Proof. split; cbn; [auto|discriminate]. Qed.
Lemma wf_put3 k r m : wf_db3 m -> wf_row3 r -> length k = 16%nat -> wf_db3 (put k r m).
Proof.
  intros [S H] Hr Hk; split; [now apply sorted_put|].
  intros k' r'; destruct (beq_spec k' k) as [->|Hne].
  - rewrite lookup_put_same; intros E; injection E as <-; auto.
  - rewrite lookup_put_other by auto; apply H.
Qed.
Lemma wf_del3 k m : wf_db3 m -> wf_db3 (del k m).
Proof.
  intros [S H]; split; [now apply sorted_del|].
  intros k' r'; destruct (beq_spec k' k) as [->|Hne].
  - now rewrite lookup_del_same.
  - rewrite lookup_del_other by auto; apply H.
Qed.

Lemma validate3_legal l : legal3 l = match validate3 l with E_OK => true | _ => false end.
Proof.
  unfold legal3, validate3, ID_SIZE3, ELEMENT_SIZE, SCALAR_SIZE.
  destruct (Nat.eqb_spec (length (l3_id l)) 16) as [Hid|]; [|reflexivity]; cbn [negb andb].
  destruct (l3_req l) as [t e|e| | |]; try reflexivity.
  - destruct (N.ltb_spec t 1), (N.ltb_spec 255 t), (Nat.eqb_spec (length e) 32),
      (Nat.eqb_spec (length (l3_priv l)) 32); cbn [orb negb andb]; lia.
  - destruct (Nat.eqb_spec (length e) 32); reflexivity.
Qed.

Section Proofs3.
Variable smul : bytes -> bytes -> option bytes.
Notation apply3 := (apply3 smul). Notation exec3 := (exec3 smul).
Notation acct_step3 := (acct_step3 smul).

Lemma apply3_refines m i : wf_db3 m ->
  exists m' r, apply3 m i = Ret (m', r) /\ wf_db3 m' /\
  acct_step3 (acct_of3 (l3_id (i3_log i)) m) i = (acct_of3 (l3_id (i3_log i)) m', r) /\
  (forall k, k <> l3_id (i3_log i) -> acct_of3 k m' = acct_of3 k m).
Proof.
  intros WF; destruct i as [vok [id req priv]]; unfold DB3.apply3, DB3Spec.acct_step3;
    rewrite validate3_legal; cbn [i3_log i3_vok l3_id l3_req l3_priv].
  destruct (validate3 _) eqn:EV; try (now exists m, None).
  unfold run3; rewrite EV; cbn [l3_req l3_id l3_priv]. unfold to_array.
  unfold validate3 in EV; cbn [l3_id l3_req l3_priv] in EV.
  unfold ID_SIZE3, ELEMENT_SIZE, SCALAR_SIZE in *.
  destruct (Nat.eqb_spec (length id) 16) as [Hid|]; [|discriminate]; cbn [negb] in EV.
  pose proof WF as [HS HW].
  destruct req as [t e|e| | |].
  - destruct ((t <? 1) || (255 <? t))%bool eqn:ET; [discriminate|].
    destruct (Nat.eqb_spec (length e) 32) as [He|]; [|discriminate]; cbn [negb] in EV.
    destruct (Nat.eqb_spec (length priv) 32) as [Hp|]; [|discriminate]. clear EV.
    unfold create3, to_array, ELEMENT_SIZE, SCALAR_SIZE. rewrite He, Hp, !Nat.eqb_refl.
    destruct (smul priv e) as [ev|]; [|eexists m, _; auto].
    eexists (put id _ m), _; split; [reflexivity|].
    split; [apply wf_put3; auto; split; cbn; [auto|lia]|].
    unfold acct_of3; rewrite lookup_put_same; cbn. rewrite N.mod_small by lia.
    split; [reflexivity|]. intros k Hk; now rewrite lookup_put_other.
  - destruct (Nat.eqb_spec (length e) 32) as [He|]; [|discriminate]. clear EV.
    unfold evaluate3, to_array, ELEMENT_SIZE. rewrite He, Nat.eqb_refl.
    unfold acct_of3 at 1. destruct (lookup id m) as [row|] eqn:EF.
    2:{ eexists m, _; unfold acct_of3; rewrite EF; auto. }
    destruct (HW _ _ EF) as [[HR1 HR2] _].
    destruct vok; cbn [negb].
    2:{ eexists m, _; unfold acct_of3; rewrite EF; auto. }
    destruct (smul (r3_priv row) e) as [ev|].
    2:{ eexists m, _; unfold acct_of3; rewrite EF; auto. }
    eexists _, _; split; [reflexivity|].
    destruct (N.eqb_spec (r3_tries row) 1) as [E1|E1].
    + replace ((r3_tries row + 255) mod 256) with 0 by (rewrite E1; reflexivity).
      replace (r3_tries row - 1) with 0 by lia. cbn [N.eqb].
      split; [now apply wf_del3|]. unfold acct_of3. rewrite lookup_del_same by auto.
      split; [reflexivity|]. intros k Hk; now rewrite lookup_del_other.
    + replace ((r3_tries row + 255) mod 256) with (r3_tries row - 1) by lia.
      destruct (N.eqb_spec (r3_tries row - 1) 0) as [|_]; [lia|].
      split; [apply wf_put3; auto; split; cbn; [auto|lia]|].
      unfold acct_of3. rewrite lookup_put_same; cbn.
      split; [reflexivity|]. intros k Hk; now rewrite lookup_put_other.
  - unfold remove3. destruct (lookup id m) as [row|] eqn:EF.
    + eexists (del id m), _; split; [reflexivity|]. split; [now apply wf_del3|].
      unfold acct_of3. rewrite lookup_del_same by auto; split; [reflexivity|].
      intros; now rewrite lookup_del_other.
    + eexists m, _; split; [reflexivity|]. split; [auto|]. unfold acct_of3; rewrite EF; auto.
  - unfold query3. unfold acct_of3. destruct (lookup id m) as [row|] eqn:EF;
      eexists m, _; (split; [reflexivity|]); rewrite EF; auto.
  - discriminate.
Qed.

Definition key3 (i : in3) : bytes := l3_id (i3_log i).
Notation arun3 := (arun acct_step3).

Lemma exec3_ok h m : wf_db3 m -> exists m' rs, exec3 m h = Ret (m', rs) /\ wf_db3 m'.
Proof. apply (exec_ok apply3 key3 acct_of3 acct_step3 wf_db3); intros; now apply apply3_refines. Qed.

Lemma reachable_wf3 m : reachable3 smul m -> wf_db3 m.
Proof.
  intros (h & rs & E). destruct (exec3_ok h [] wf_nil3) as (m' & rs' & E' & W). congruence.
Qed.

Lemma exec3_last h i m m' rs : wf_db3 m ->
  exec3 m (h ++ [i]) = Ret (m', rs) ->
  last rs None = snd (acct_step3 (fst (arun3 (acct_of3 (key3 i) m) (filter (for_id3 (key3 i)) h))) i) /\
  acct_of3 (key3 i) m' = fst (acct_step3 (fst (arun3 (acct_of3 (key3 i) m) (filter (for_id3 (key3 i)) h))) i).
Proof.
  intros WF H.
  destruct (exec_project_last apply3 key3 acct_of3 acct_step3 wf_db3
              ltac:(intros; now apply apply3_refines) h i m m' rs WF H) as [rs0 [r [-> E]]].
  change (mine key3) with for_id3 in E.
  rewrite E, last_last; auto.
Qed.

Lemma fst_arun_cons3 a i h : fst (arun3 a (i :: h)) = fst (arun3 (fst (acct_step3 a i)) h).
Proof. cbn; destruct (acct_step3 a i) as [a1 r]; cbn; destruct (arun3 a1 h); reflexivity. Qed.
Lemma fst_arun_app3 a h1 h2 : fst (arun3 a (h1 ++ h2)) = fst (arun3 (fst (arun3 a h1)) h2).
Proof. rewrite arun_app; destruct (arun3 a h1) as [a1 r]; cbn; destruct (arun3 a1 h2); reflexivity. Qed.
Lemma filter_for_all3 id h i : In i (filter (for_id3 id) h) -> for_id3 id i = true.
Proof. intros H; apply filter_In in H; tauto. Qed.

Lemma is_create_for3 id i : is_create3 smul id i = true -> for_id3 id i = true.
Proof. unfold is_create3; now destruct (for_id3 id i). Qed.
Lemma is_remove_for3 id i : is_remove3 id i = true -> for_id3 id i = true.
Proof. unfold is_remove3; now destruct (for_id3 id i). Qed.
Lemma is_eval_for3 id k i : is_eval3 smul id k i = true -> for_id3 id i = true.
Proof. unfold is_eval3; now destruct (for_id3 id i). Qed.

Lemma step_none3 id i : for_id3 id i = true -> is_create3 smul id i = false ->
  fst (acct_step3 NoAcct3 i) = NoAcct3.
Proof.
  intros Hf Hc; unfold is_create3 in Hc; rewrite Hf in Hc; unfold DB3Spec.acct_step3.
  destruct (legal3 (i3_log i)); [|reflexivity]. cbn [andb] in Hc.
  destruct (l3_req (i3_log i)); try reflexivity. destruct (smul _ _); [discriminate|reflexivity].
Qed.

Lemma step_acct3 id i k t : for_id3 id i = true -> is_create3 smul id i = false ->
  is_remove3 id i = false ->
  fst (acct_step3 (Acct3 k t) i) =
    if is_eval3 smul id k i then (if t =? 1 then NoAcct3 else Acct3 k (t - 1)) else Acct3 k t.
Proof.
  intros Hf Hc Hr; unfold is_create3, is_remove3, is_eval3 in *; rewrite Hf in *; unfold DB3Spec.acct_step3.
  destruct (legal3 (i3_log i)); [|reflexivity]. cbn [andb] in *.
  destruct (l3_req (i3_log i)); cbn [fst]; rewrite ?andb_false_r; try reflexivity; try discriminate.
  - destruct (smul _ _); [discriminate|reflexivity].
  - destruct (i3_vok i); cbn [andb]; [|reflexivity]. destruct (smul k element); reflexivity.
Qed.

Lemma arun_none3 id h : (forall i, In i h -> for_id3 id i = true) ->
  none_of (is_create3 smul id) h -> fst (arun3 NoAcct3 h) = NoAcct3.
Proof.
  induction h as [|i h IH]; intros Hf Hc; [reflexivity|].
  apply none_of_cons in Hc as [Hc Hc']. rewrite fst_arun_cons3, (step_none3 id); auto.
  - apply IH; auto. intros; apply Hf; cbn; auto.
  - apply Hf; cbn; auto.
Qed.

Lemma arun_acct3 id k h : forall t, 1 <= t -> (forall i, In i h -> for_id3 id i = true) ->
  none_of (is_create3 smul id) h -> none_of (is_remove3 id) h ->
  fst (arun3 (Acct3 k t) h) =
    (let n := count (is_eval3 smul id k) h in if n <? t then Acct3 k (t - n) else NoAcct3).
Proof.
  induction h as [|i h IH]; intros t Ht Hf Hc Hr; cbv zeta.
  - change (count (is_eval3 smul id k) []) with 0. cbn [arun fst].
    destruct (N.ltb_spec 0 t) as [H|H]; [f_equal; lia|lia].
  - apply none_of_cons in Hc as [Hc Hc']. apply none_of_cons in Hr as [Hr Hr'].
    assert (Hf' : forall i, In i h -> for_id3 id i = true) by (intros; apply Hf; cbn; auto).
    rewrite fst_arun_cons3, (step_acct3 id), count_cons by (auto; apply Hf; cbn; auto).
    destruct (is_eval3 smul id k i).
    + destruct (N.eqb_spec t 1) as [->|].
      * rewrite (arun_none3 id) by auto. destruct (N.ltb_spec (1 + count (is_eval3 smul id k) h) 1); [lia|reflexivity].
      * rewrite IH by (auto; lia). cbv zeta.
        destruct (N.ltb_spec (count (is_eval3 smul id k) h) (t - 1)),
                 (N.ltb_spec (1 + count (is_eval3 smul id k) h) t); try lia; [f_equal; lia|reflexivity].
    + rewrite IH by auto. reflexivity.
Qed.

(* account state after a Create *)
Lemma after_create3 id t e priv ev v h0 h1 a :
  legal3 (Log3 id (Create3 t e) priv) = true -> smul priv e = Some ev ->
  none_of (is_create3 smul id) h1 -> none_of (is_remove3 id) h1 ->
  fst (arun3 a (filter (for_id3 id) (h0 ++ In3 v (Log3 id (Create3 t e) priv) :: h1))) =
  (let n := count (is_eval3 smul id priv) h1 in if n <? t then Acct3 priv (t - n) else NoAcct3).
Proof.
  intros L E Hc Hr. rewrite filter_app, fst_arun_app3. cbn [filter].
  assert (F : for_id3 id (In3 v (Log3 id (Create3 t e) priv)) = true) by (unfold for_id3; cbn; apply beq_refl).
  rewrite F, fst_arun_cons3.
  assert (ES : forall a0, fst (acct_step3 a0 (In3 v (Log3 id (Create3 t e) priv))) = Acct3 priv t).
  { intros; unfold DB3Spec.acct_step3; cbn [i3_log l3_req l3_priv]; now rewrite L, E. }
  rewrite ES, (arun_acct3 id).
  - now rewrite count_filter by (intros; eapply is_eval_for3; eauto).
  - unfold legal3 in L; cbn [l3_id l3_req l3_priv] in L; lia.
  - intros; eapply filter_for_all3; eauto.
  - now apply none_of_filter.
  - now apply none_of_filter.
Qed.

Lemma eval_answer3 h0 h1 id t e0 priv ev0 vc v e p m rs :
  legal3 (Log3 id (Create3 t e0) priv) = true -> smul priv e0 = Some ev0 ->
  none_of (is_create3 smul id) h1 -> none_of (is_remove3 id) h1 ->
  legal3 (Log3 id (Evaluate3 e) p) = true ->
  exec3 [] (h0 ++ In3 vc (Log3 id (Create3 t e0) priv) :: h1 ++ [In3 v (Log3 id (Evaluate3 e) p)]) = Ret (m, rs) ->
  let n := count (is_eval3 smul id priv) h1 in
  last_answer rs = Some
    (if n <? t then
       match (if v then smul priv e else None) with
       | Some ev => RspEvaluate3 S3_OK ev (t - n - 1)
       | None => RspEvaluate3 S3_ERROR [] 0
       end
     else RspEvaluate3 S3_MISSING [] 0).
Proof.
  intros L E Hc Hr Le H n. set (i := In3 v _) in *. set (b := In3 vc _) in *.
  replace (h0 ++ b :: h1 ++ [i]) with ((h0 ++ b :: h1) ++ [i]) in H by (rewrite <- app_assoc; reflexivity).
  apply exec3_last in H as [H _]; [|apply wf_nil3].
  change (key3 i) with id in H. unfold last_answer; rewrite H. subst b.
  rewrite (after_create3 id t e0 priv ev0) by assumption. cbv zeta; fold n.
  unfold DB3Spec.acct_step3; subst i; cbn [i3_log i3_vok l3_req]; rewrite Le.
  destruct (n <? t); [|reflexivity]. destruct v; [|reflexivity]. destruct (smul priv e); reflexivity.
Qed.

Lemma query_answer3 h0 h1 id t e0 priv ev0 vc v p m rs :
  legal3 (Log3 id (Create3 t e0) priv) = true -> smul priv e0 = Some ev0 ->
  none_of (is_create3 smul id) h1 -> none_of (is_remove3 id) h1 ->
  exec3 [] (h0 ++ In3 vc (Log3 id (Create3 t e0) priv) :: h1 ++ [In3 v (Log3 id Query3 p)]) = Ret (m, rs) ->
  let n := count (is_eval3 smul id priv) h1 in
  last_answer rs = Some (if n <? t then RspQuery3 S3_OK (t - n) else RspQuery3 S3_MISSING 0).
Proof.
  intros L E Hc Hr H n. set (i := In3 v _) in *. set (b := In3 vc _) in *.
  replace (h0 ++ b :: h1 ++ [i]) with ((h0 ++ b :: h1) ++ [i]) in H by (rewrite <- app_assoc; reflexivity).
  apply exec3_last in H as [H _]; [|apply wf_nil3].
  change (key3 i) with id in H. unfold last_answer; rewrite H. subst b.
  rewrite (after_create3 id t e0 priv ev0) by assumption. cbv zeta; fold n.
  unfold DB3Spec.acct_step3; subst i; cbn [i3_log i3_vok l3_req].
  assert (Lq : legal3 (Log3 id Query3 p) = true) by (unfold legal3 in *; cbn [l3_id l3_req] in *; lia).
  rewrite Lq. destruct (n <? t); reflexivity.
Qed.

(* converse: an account comes from a Create *)
Lemma arun_history3 id h k t :
  (forall i, In i h -> for_id3 id i = true) -> fst (arun3 NoAcct3 h) = Acct3 k t ->
  exists ha v t0 e0 ev hb, h = ha ++ In3 v (Log3 id (Create3 t0 e0) k) :: hb /\
    legal3 (Log3 id (Create3 t0 e0) k) = true /\ smul k e0 = Some ev /\
    none_of (is_create3 smul id) hb /\ none_of (is_remove3 id) hb.
Proof.
  revert k t; induction h as [|i h IH] using rev_ind; intros k t Hf H; [discriminate|].
  rewrite fst_arun_app3 in H; cbn [arun] in H.
  assert (Hf' : forall i, In i h -> for_id3 id i = true) by (intros; apply Hf, in_app_iff; auto).
  assert (Hi : for_id3 id i = true) by (apply Hf, in_app_iff; cbn; auto).
  set (a := fst (arun3 NoAcct3 h)) in *.
  assert (H' : fst (acct_step3 a i) = Acct3 k t) by (destruct (acct_step3 a i); exact H). clear H.
  destruct (is_create3 smul id i) eqn:EC.
  - unfold is_create3 in EC. rewrite Hi in EC. unfold DB3Spec.acct_step3 in H'.
    destruct i as [v [id' req priv]]; cbn [i3_log l3_id l3_req l3_priv i3_vok] in *.
    apply beq_eq in Hi; cbn in Hi; subst id'.
    destruct (legal3 (Log3 id req priv)) eqn:EL; [|discriminate]. cbn [andb] in EC.
    destruct req as [t0 e0|e| | |]; try discriminate.
    destruct (smul priv e0) as [ev|] eqn:ES; [|discriminate]. cbn in H'; injection H' as -> ->.
    exists h, v, t, e0, ev, []. split; [reflexivity|]. repeat split; auto; intros ? [].
  - destruct (is_remove3 id i) eqn:ER.
    { unfold is_remove3 in ER; rewrite Hi in ER. unfold DB3Spec.acct_step3 in H'.
      destruct (legal3 (i3_log i)); [|discriminate]. destruct (l3_req (i3_log i)); discriminate. }
    destruct a as [|k0 t0] eqn:Ea.
    { rewrite (step_none3 id) in H' by auto; discriminate. }
    rewrite (step_acct3 id) in H' by auto.
    assert (k0 = k) as ->.
    { destruct (is_eval3 smul id k0 i); [destruct (t0 =? 1)|]; congruence. }
    destruct (IH k t0 Hf' eq_refl) as (ha & v & t1 & e0 & ev & hb & -> & L & E & N1 & N2).
    exists ha, v, t1, e0, ev, (hb ++ [i]). split; [now rewrite <- app_assoc|].
    split; [exact L|]. split; [exact E|].
    split; apply none_of_app; split; auto; apply none_of_cons; split; auto; intros ? [].
Qed.

Lemma eval_ok_history3 h id e p v m rs ev k :
  exec3 [] (h ++ [In3 v (Log3 id (Evaluate3 e) p)]) = Ret (m, rs) ->
  last_answer rs = Some (RspEvaluate3 S3_OK ev k) ->
  exists h0 vc t e0 ev0 priv h1,
    h = h0 ++ In3 vc (Log3 id (Create3 t e0) priv) :: h1 /\
    legal3 (Log3 id (Create3 t e0) priv) = true /\ smul priv e0 = Some ev0 /\
    none_of (is_create3 smul id) h1 /\ none_of (is_remove3 id) h1 /\
    smul priv e = Some ev /\
    count (is_eval3 smul id priv) h1 < t /\ k = t - count (is_eval3 smul id priv) h1 - 1.
Proof.
  intros H Hl. assert (H0 := H). set (i := In3 v _) in *.
  apply exec3_last in H as [H1 _]; [|apply wf_nil3]. change (key3 i) with id in H1.
  assert (Hl' := Hl). unfold last_answer in Hl; rewrite Hl in H1; clear Hl.
  change (acct_of3 id []) with NoAcct3 in H1.
  destruct (fst (arun3 NoAcct3 (filter (for_id3 id) h))) as [|k0 t0] eqn:EA.
  { unfold DB3Spec.acct_step3 in H1; subst i; cbn [i3_log l3_req] in H1. destruct (legal3 _); discriminate. }
  destruct (legal3 (Log3 id (Evaluate3 e) p)) eqn:EL.
  2:{ unfold DB3Spec.acct_step3 in H1; subst i; cbn [i3_log l3_req] in H1. rewrite EL in H1; discriminate. }
  destruct (arun_history3 id _ _ _ ltac:(intros; eapply filter_for_all3; eauto) EA)
    as (ha & vc & t & e0 & ev0 & hb & Eh & L & E & N1 & N2).
  destruct (filter_split _ _ _ _ _ Eh) as (h0 & h1 & Eh1 & F1 & F2). subst h hb.
  apply none_of_unfilter in N1; [|apply is_create_for3]. apply none_of_unfilter in N2; [|apply is_remove_for3].
  assert (HE : exec3 [] (h0 ++ In3 vc (Log3 id (Create3 t e0) k0) :: h1 ++ [i]) = Ret (m, rs))
    by (rewrite <- app_assoc in H0; exact H0).
  pose proof (eval_answer3 _ _ _ _ _ _ _ _ _ _ _ _ _ L E N1 N2 EL HE) as HA. cbv zeta in HA.
  rewrite Hl' in HA.
  exists h0, vc, t, e0, ev0, k0, h1. split; [reflexivity|].
  destruct (N.ltb_spec (count (is_eval3 smul id k0) h1) t) as [Hn|]; [|discriminate].
  destruct v; [|discriminate]. destruct (smul k0 e); [|discriminate].
  injection HA as -> ->. repeat split; auto.
Qed.

Lemma isolation3 id h m1 rs1 m2 rs2 :
  exec3 [] h = Ret (m1, rs1) -> exec3 [] (filter (for_id3 id) h) = Ret (m2, rs2) ->
  rs2 = map snd (filter (fun p => for_id3 id (fst p)) (combine h rs1)) /\
  acct_of3 id m2 = acct_of3 id m1.
Proof.
  apply (exec_noninterference apply3 key3 acct_of3 acct_step3 wf_db3
     ltac:(intros; now apply apply3_refines) h [] id m1 rs1 m2 rs2 wf_nil3).
Qed.

Lemma removed_stays3 h0 h1 id vd p i m rs :
  length id = 16%nat -> none_of (is_create3 smul id) h1 ->
  for_id3 id i = true -> is_create3 smul id i = false ->
  exec3 [] (h0 ++ In3 vd (Log3 id Remove3 p) :: h1 ++ [i]) = Ret (m, rs) ->
  last_answer rs = (if legal3 (i3_log i) then
    match l3_req (i3_log i) with
    | Evaluate3 _ => Some (RspEvaluate3 S3_MISSING [] 0)
    | Query3 => Some (RspQuery3 S3_MISSING 0)
    | Remove3 => Some RspRemove3
    | Create3 _ _ => Some (RspCreate3 S3_ERROR [])
    | Unset3 => None end else None) /\ lookup id m = None.
Proof.
  intros Lid Hb Fi Hbi H. set (b := In3 vd _) in *.
  replace (h0 ++ b :: h1 ++ [i]) with ((h0 ++ b :: h1) ++ [i]) in H
    by (rewrite <- app_assoc; reflexivity).
  apply exec3_last in H as [H Hm]; [|apply wf_nil3].
  assert (Ek : key3 i = id) by (now apply beq_eq). rewrite Ek in H, Hm.
  rewrite filter_app, fst_arun_app3 in H, Hm.
  assert (F : for_id3 id b = true) by (unfold for_id3; cbn; apply beq_refl).
  cbn [filter] in H, Hm; rewrite F, fst_arun_cons3 in H, Hm.
  assert (E0 : forall a0, fst (acct_step3 a0 b) = NoAcct3).
  { intros; unfold DB3Spec.acct_step3; subst b; cbn [i3_log i3_vok l3_req]; unfold legal3; cbn [l3_id l3_req].
    rewrite Lid; reflexivity. }
  rewrite E0, (arun_none3 id) in H, Hm; try (now apply none_of_filter); try (intros; eapply filter_for_all3; eauto).
  rewrite (step_none3 id) in Hm by auto. split.
  - unfold last_answer; rewrite H. unfold is_create3 in Hbi; rewrite Fi in Hbi. unfold DB3Spec.acct_step3.
    destruct (legal3 (i3_log i)) eqn:EL; [|reflexivity]. cbn [andb] in Hbi.
    destruct (l3_req (i3_log i)); try reflexivity. destruct (smul _ _); [discriminate|reflexivity].
  - unfold acct_of3 in Hm. destruct (lookup id m); [discriminate|reflexivity].
Qed.

Lemma no_crash3 m v l : reachable3 smul m -> validate3 l = E_OK -> run3 smul m v l <> Crash.
Proof.
  intros HR HV HC. apply reachable_wf3 in HR.
  destruct (apply3_refines m (In3 v l) HR) as (m' & r & E & _).
  unfold DB3.apply3 in E; cbn [i3_log i3_vok] in E. rewrite HV, HC in E; discriminate.
Qed.
End Proofs3.

(* --- transfer --- *)
Lemma parse_ser_row3 p : blen (p3_id p) < 2 ^ 64 -> blen (p3_priv p) < 2 ^ 64 -> p3_tries p < 2 ^ 32 ->
  parse_row3 (ser_row3 p) = Some p.
Proof.
  intros H1 H2 H3. unfold parse_row3, ser_row3.
  assert (P : 2 ^ 32 < 2 ^ 64) by reflexivity. assert (P2 : 1 < 2 ^ 29 /\ 5 < 2 ^ 29) by (split; reflexivity).
  rewrite parse_ser by (repeat (apply Forall_app; split); (apply ob_ok || apply ov_ok); lia).
  wire_get. destruct p as [i pv t]; cbn [p3_id p3_tries p3_priv] in *.
  f_equal. f_equal; try (destruct i; reflexivity); try (destruct pv; reflexivity).
  destruct (N.eqb_spec t 0); [now subst|]. now apply N.mod_small.
Qed.

Lemma parse_row_of_db3 k r : wf_row3 r -> length k = 16%nat ->
  parse_row3 (ser_row3 (row_proto3 k r)) = Some (row_proto3 k r).
Proof.
  intros [Hp Ht] Hk.
  assert (P64 : 2^64 = 18446744073709551616) by reflexivity.
  assert (P32 : 2^32 = 4294967296) by reflexivity.
  apply parse_ser_row3; unfold row_proto3; cbn [p3_id p3_tries p3_priv]; unfold blen; rewrite ?Hk, ?Hp; lia.
Qed.

Lemma load_row3_ok m s :
  (exists m' id, load_row3 m s = (m', E_OK, id)) <->
  exists p, parse_row3 s = Some p /\ row_msg_ok3 p = true /\
            (forall k, last_key m = Some k -> blt k (p3_id p) = true).
Proof.
  unfold load_row3, row_msg_ok3, SCALAR_SIZE, ID_SIZE3.
  destruct (parse_row3 s) as [p|]; [|split; [intros (? & ? & ?); discriminate|intros (? & ? & _); discriminate]].
  split.
  - intros (m' & id & H). exists p. split; [reflexivity|].
    destruct ((255 <? p3_tries p) || (p3_tries p <? 1))%bool eqn:E1; [discriminate|].
    destruct (length (p3_id p) =? 16)%nat eqn:E2; cbn [negb] in H; [|discriminate].
    destruct (match last_key m with Some _ => _ | None => _ end) eqn:E3; [discriminate|].
    destruct (length (p3_priv p) =? 32)%nat eqn:E4; cbn [negb] in H; [|discriminate].
    split; [lia|]. intros k Hk; rewrite Hk in E3.
    rewrite ble_nblt in E3. now destruct (blt k (p3_id p)).
  - intros (p' & E & H1 & H2). injection E as <-.
    destruct ((255 <? p3_tries p) || (p3_tries p <? 1))%bool eqn:E1; [lia|].
    destruct (length (p3_id p) =? 16)%nat eqn:E2; cbn [negb]; [|lia].
    destruct (length (p3_priv p) =? 32)%nat eqn:E4; cbn [negb]; [|lia].
    destruct (last_key m) as [k|]; [|eauto].
    specialize (H2 k eq_refl). rewrite ble_nblt, H2. cbn; eauto.
Qed.

Lemma load_row3_res m s m' id : sorted m -> load_row3 m s = (m', E_OK, id) ->
  exists p, parse_row3 s = Some p /\ row_msg_ok3 p = true /\ id = p3_id p /\
    (forall k v, In (k, v) m -> blt k (p3_id p) = true) /\
    m' = m ++ [(p3_id p, Row3 (p3_priv p) (p3_tries p))].
Proof.
  intros S H. assert (HE : exists m' id, load_row3 m s = (m', E_OK, id)) by eauto.
  apply load_row3_ok in HE as (p & EP & H1 & H2). exists p. split; [exact EP|]. split; [exact H1|].
  assert (HB : forall k v, In (k, v) m -> blt k (p3_id p) = true).
  { intros k v Hin. destruct (last_key m) as [lk|] eqn:EL.
    - specialize (H2 lk eq_refl). destruct (last_key_max _ _ S EL k v Hin) as [->|Hlt]; [exact H2|].
      eapply blt_trans; eauto.
    - apply last_key_none in EL; subst m; contradiction. }
  revert H; unfold load_row3; rewrite EP. unfold row_msg_ok3 in H1.
  destruct ((255 <? p3_tries p) || _)%bool; [discriminate|].
  destruct (negb _); [discriminate|].
  destruct (match last_key m with Some _ => _ | None => _ end); [discriminate|].
  destruct (negb _); [discriminate|].
  intros H; injection H as <- <-. split; [reflexivity|]. split; [exact HB|].
  rewrite put_above_last by exact HB. rewrite N.mod_small by lia. reflexivity.
Qed.

Lemma transfer3_lossless m sizes : wf_db3 m ->
  Forall (fun n => (0 < n)%nat) sizes -> (length m <= total sizes)%nat ->
  transfer (rows_as_protos3 m) load_rows3 [] [] sizes = Ret (m, E_OK).
Proof.
  intros [S W] HF Hle.
  assert (W' : forall k v, In (k, v) m -> wf_row3 v /\ length k = 16%nat)
    by (intros; apply W; now apply in_lookup).
  destruct (transfer_ok m (fun id r => ser_row3 (row_proto3 id r)) (fun d pre => d = pre) false
     (@length _) load_row3 S (fun k v H => proj2 (W' k v H))) with (dst := @nil (bytes * row3)) (sizes := sizes)
     as (d & E & HR); auto.
  2:{ rewrite HR in E; exact E. }
  intros dst pre k v post -> Em.
  assert (Hin : In (k, v) m) by (rewrite Em; apply in_or_app; right; now left).
  destruct (W' _ _ Hin) as [Wv Hk].
  assert (Sp : sorted pre) by (rewrite Em in S; apply sorted_app in S; tauto).
  assert (HE : exists m' id, load_row3 pre (ser_row3 (row_proto3 k v)) = (m', E_OK, id)).
  { apply load_row3_ok. exists (row_proto3 k v). split; [now apply parse_row_of_db3|].
    split. { destruct Wv; unfold row_msg_ok3, row_proto3; cbn [p3_id p3_priv p3_tries]; lia. }
    cbn [row_proto3 p3_id].
    intros k0 Hl. apply last_key_in in Hl as [v0 Hv0].
    rewrite Em in S; apply sorted_app in S as (_ & _ & HA). specialize (HA k0 v0 Hv0). cbn in HA; tauto. }
  destruct HE as (m' & id & HE). exists m'.
  destruct (load_row3_res _ _ _ _ Sp HE) as (p & EP & _ & Eid & _ & Em').
  rewrite parse_row_of_db3 in EP by auto. injection EP as <-.
  cbn [row_proto3 p3_id p3_priv p3_tries] in *.
  subst m' id. split; [exact HE|]. split; [destruct v; reflexivity|]. rewrite app_length; cbn; lia.
Qed.

Lemma load_only_good3 m rows m' last : sorted m -> load_rows3 m rows = Ret (m', last, E_OK) ->
  exists ps, map parse_row3 rows = map Some ps /\ forallb row_msg_ok3 ps = true /\
    m' = m ++ map (fun p => (p3_id p, Row3 (p3_priv p) (p3_tries p))) ps /\ sorted m'.
Proof.
  intros S H. apply load_accepted in H as [H _]. induction H as [s|s r s1 id rows s2 E H IH].
  - exists []; cbn; rewrite app_nil_r; auto.
  - destruct (load_row3_res _ _ _ _ S E) as (p & EP & HP & _ & HB & ->).
    assert (S1 : sorted (s ++ [(p3_id p, Row3 (p3_priv p) (p3_tries p))])).
    { apply sorted_app; split; [exact S|]. split; [cbn; auto|]. intros k v Hin; cbn; split; auto. eapply HB; eauto. }
    destruct (IH S1) as (ps & E1 & E2 & E3 & E4).
    exists (p :: ps); cbn. rewrite EP, E1, HP, E2. split; [reflexivity|]. split; [reflexivity|].
    split; [rewrite E3, <- app_assoc; reflexivity|exact E4].
Qed.

Lemma row_size3 k r : wf_row3 r -> length k = 16%nat ->
  length (ser_row3 (row_proto3 k r)) = (18 + 34 + (if (r3_tries r <? 128)%N then 2 else 3))%nat.
Proof.
  intros [Hp Ht] Hk. unfold ser_row3, row_proto3; cbn [p3_id p3_tries p3_priv].
  rewrite !ser_msg_app, !app_length.
  rewrite !ser_ob_length by (try lia; rewrite ?Hk, ?Hp; lia).
  rewrite Hk, Hp. destruct (N.ltb_spec (r3_tries r) 128).
  - rewrite ser_ov_length1 by lia. lia.
  - rewrite ser_ov_length2 by lia. lia.
Qed.

Lemma hash3_collision sip16 sha256 m1 m2 : (forall x, length (sip16 x) = 16%nat) ->
  wf_db3 m1 -> wf_db3 m2 ->
  hash3 sip16 sha256 m1 = hash3 sip16 sha256 m2 ->
  m1 = m2 \/ collision sip16 \/ collision sha256.
Proof.
  intros HL W1 W2 E. destruct (db_hash_inj _ _ _ _ HL E) as [Em|]; [|auto].
  left. destruct W1 as [S1 W1], W2 as [S2 W2].
  assert (V1 : forall k v, In (k, v) m1 -> wf_row3 v /\ length k = 16%nat) by (intros; apply W1; now apply in_lookup).
  assert (V2 : forall k v, In (k, v) m2 -> wf_row3 v /\ length k = 16%nat) by (intros; apply W2; now apply in_lookup).
  clear - Em V1 V2. revert m2 Em V2; induction m1 as [|[k1 r1] m1 IH]; intros [|[k2 r2] m2] E V2; try discriminate; auto.
  cbn [map fst snd] in E.
  assert (E1 := f_equal (hd []) E). assert (E2 := f_equal (@tl _) E). cbn [hd tl] in E1, E2. clear E.
  destruct (V1 k1 r1 (or_introl eq_refl)) as [[R1 T1] L1], (V2 k2 r2 (or_introl eq_refl)) as [[R2 T2] L2].
  unfold hashrow_bytes3 in E1.
  apply app_len_inj in E1 as [-> E1]; [|congruence].
  apply app_len_inj in E1 as [Ea Eb]; [|reflexivity].
  assert (P32 : 2 ^ 32 = 4294967296) by reflexivity.
  apply be32_inj in Ea; [|lia|lia].
  f_equal; [destruct r1, r2; cbn in *; congruence|].
  apply IH; auto; intros; [eapply V1|eapply V2]; right; eauto.
Qed.
