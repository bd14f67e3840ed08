From Verif Require Import DB4 DB4Spec Keyed UtilProofs WireProofs TransferProofs DBHashProofs.

Definition wf_db4 (m : db4) : Prop :=
  sorted (rows4 m) /\ sorted (rots4 m) /\
  (forall k, lookup k (rows4 m) = None -> lookup k (rots4 m) = None) /\
  (forall k r, lookup k (rows4 m) = Some r -> 1 <= r4_tries r <= 255).

Lemma wf_nil4 : wf_db4 empty4.
Proof. repeat split; cbn; auto; discriminate. Qed.

Ltac lkp k id := destruct (beq_spec k id) as [->|?];
  rewrite ?lookup_put_same, ?lookup_del_same by auto; rewrite ?lookup_put_other, ?lookup_del_other by auto.

Lemma wf_put4 k r m o : wf_db4 m -> 1 <= r4_tries r <= 255 ->
  o = rots4 m \/ o = del k (rots4 m) ->
  wf_db4 (DB4 (put k r (rows4 m)) o).
Proof.
  intros (S1 & S2 & HD & HT) Ht Ho. unfold wf_db4; cbn [rows4 rots4].
  split; [now apply sorted_put|]. split; [destruct Ho as [->| ->]; auto using sorted_del|]. split.
  - intros k'. lkp k' k; [discriminate|]. destruct Ho as [->| ->]; [auto|].
    rewrite lookup_del_other by auto. auto.
  - intros k' r'. lkp k' k; [intros E; injection E as <-; auto|]. eauto.
Qed.
Lemma wf_rm4 k m o : wf_db4 m -> o = del k (rots4 m) -> wf_db4 (DB4 (del k (rows4 m)) o).
Proof.
  intros (S1 & S2 & HD & HT) ->. unfold wf_db4; cbn [rows4 rots4].
  split; [now apply sorted_del|]. split; [now apply sorted_del|]. split.
  - intros k'. lkp k' k; auto.
  - intros k' r'. lkp k' k; [discriminate|]. eauto.
Qed.
Lemma wf_rot4 k rr m : wf_db4 m -> lookup k (rows4 m) <> None -> wf_db4 (DB4 (rows4 m) (put k rr (rots4 m))).
Proof.
  intros (S1 & S2 & HD & HT) Hk. unfold wf_db4; cbn [rows4 rots4].
  split; [auto|]. split; [now apply sorted_put|]. split; [|eauto].
  intros k' Hn. destruct (beq_spec k' k) as [->|]; [contradiction|]. rewrite lookup_put_other; auto.
Qed.
Lemma wf_unrot4 k m : wf_db4 m -> wf_db4 (DB4 (rows4 m) (del k (rots4 m))).
Proof.
  intros (S1 & S2 & HD & HT). unfold wf_db4; cbn [rows4 rots4].
  split; [auto|]. split; [now apply sorted_del|]. split; [|eauto].
  intros k' Hn. lkp k' k; auto.
Qed.

Lemma xor_bytes_spec a b : xor_bytes a b = xor32 a b.
Proof. revert b; induction a as [|x a IH]; intros [|y b]; cbn; auto. now rewrite IH. Qed.

Section Proofs4.
Variable c : crypto4.
Notation apply4 := (apply4 c). Notation exec4 := (exec4 c).
Notation acct_step4 := (acct_step4 c). Notation legal4 := (legal4 c).
Notation pt_from := (pt_from c). Notation sc_from := (sc_from c).

Lemma pt_from_spec s : pt_from s = if is_point c s then Some s else None.
Proof. unfold DB4.pt_from, is_point, KEY_SIZE4. destruct (length s =? 32)%nat; reflexivity. Qed.
Lemma sc_from_spec s : sc_from s = if is_scalar c s then Some s else None.
Proof. unfold DB4.sc_from, is_scalar, KEY_SIZE4. destruct (length s =? 32)%nat; reflexivity. Qed.
Lemma bad_if (b : bool) (s : bytes) : bad (if b then Some s else None) = negb b.
Proof. destruct b; reflexivity. Qed.

Lemma validate4_legal l : legal4 l = match validate4 c l with E_OK => true | _ => false end.
Proof.
  unfold DB4Spec.legal4, validate4, ID_SIZE4, KEY_SIZE4, MAX_TRIES4.
  destruct (Nat.eqb_spec (length (l4_id l)) 16) as [Hid|]; [|reflexivity]; cbn [negb andb].
  destruct (l4_req l) as [t o a e z v|b|ap az v| | |v od ed|v|v|]; try reflexivity;
    rewrite ?pt_from_spec, ?sc_from_spec, ?bad_if.
  - destruct (is_point c a), (is_scalar c o), (is_scalar c z), (length e =? 32)%nat;
      rewrite ?orb_true_r, ?andb_false_r; cbn [negb orb andb]; rewrite ?orb_true_r, ?orb_false_r, ?andb_false_r, ?andb_true_r;
      try (destruct (255 <? t); reflexivity);
      destruct (N.ltb_spec 255 t), (N.eqb_spec v 0); cbn [orb]; lia.
  - destruct (is_point c b); reflexivity.
  - destruct (is_scalar c od), (length ed =? 32)%nat; rewrite ?orb_true_r, ?andb_false_r; cbn [negb orb andb];
      rewrite ?orb_true_r, ?orb_false_r, ?andb_false_r, ?andb_true_r; try reflexivity;
      destruct (N.eqb_spec v 0); lia.
  - destruct (N.eqb_spec v 0); lia.
  - destruct (N.eqb_spec v 0); lia.
Qed.

Lemma blind_eval_spec id b key zero :
  match from_hash4 c (sha512 c (id ++ b)) with
  | None => None | Some h => blind_eval4 c h b key zero end = oprf c id b key zero.
Proof.
  unfold oprf, blind_eval4. destruct (from_hash4 c _) as [h|]; [|reflexivity].
  destruct (smul4 c key b) as [bp|]; [|reflexivity].
  rewrite ct_equals_spec. change (zeros KEY_SIZE4) with (repeat 0 32).
  destruct (beq zero (repeat 0 32)); [reflexivity|]. destruct (smul4 c zero h); reflexivity.
Qed.

Lemma apply4_refines m i : wf_db4 m ->
  exists m' r, apply4 m i = Ret (m', r) /\ wf_db4 m' /\
  acct_step4 (account4 (l4_id (i4_log i)) m) i = (account4 (l4_id (i4_log i)) m', r) /\
  (forall k, k <> l4_id (i4_log i) -> account4 k m' = account4 k m).
Proof.
  intros WF; destruct i as [vok [id req]]; unfold DB4.apply4, DB4Spec.acct_step4;
    rewrite validate4_legal; cbn [i4_log i4_vok l4_id l4_req].
  destruct (validate4 c _) eqn:EV; try (now exists m, None).
  unfold run4; rewrite EV; cbn [l4_req l4_id].
  assert (EL : legal4 (Log4 id req) = true) by (rewrite validate4_legal, EV; reflexivity). clear EV.
  unfold DB4Spec.legal4 in EL; cbn [l4_id l4_req] in EL. apply andb_true_iff in EL as [Eid EL].
  unfold arr_from, ID_SIZE4. rewrite Eid. apply Nat.eqb_eq in Eid.
  pose proof WF as (S1 & S2 & HD & HT).
  assert (Hsame : exists m' : db4, m' = m) by eauto.
  destruct req as [t o a e z v|b|ap az v| | |v od ed|v|v|]; try discriminate EL.
  - repeat (apply andb_true_iff in EL as [EL ?]).
    assert (CR : create4 c m id t o a e z v =
      match lookup id (rows4 m), t =? 0 with
      | None, true => Ret (m, (RspCreate4 S4_INVALID 0, None))
      | f, _ => let t' := if t =? 0 then match f with Some r => r4_tries r | None => 0 end else t mod 256 in
         Ret (DB4 (put id (Row4 a o e z v t') (rows4 m)) (del id (rots4 m)), (RspCreate4 S4_OK t', None)) end).
    { unfold create4, arr_from, KEY_SIZE4. rewrite pt_from_spec, !sc_from_spec.
      repeat match goal with H : is_point c _ = true |- _ => rewrite H; clear H
        | H : is_scalar c _ = true |- _ => rewrite H; clear H | H : (length e =? 32)%nat = true |- _ => rewrite H; clear H end.
      destruct (lookup id (rows4 m)), (t =? 0); reflexivity. }
    rewrite CR; clear CR. unfold account4 at 1.
    destruct (lookup id (rows4 m)) as [r0|] eqn:EF.
    + set (t1 := if t =? 0 then r4_tries r0 else t).
      assert (Et : (if t =? 0 then r4_tries r0 else t mod 256) = t1).
      { subst t1; destruct (N.eqb_spec t 0); [reflexivity|]. apply N.mod_small; lia. }
      cbv zeta. rewrite Et. eexists _, _. split; [destruct (t =? 0); reflexivity|].
      assert (1 <= t1 <= 255) by (specialize (HT _ _ EF); subst t1; destruct (N.eqb_spec t 0); lia).
      split; [apply wf_put4; auto|].
      unfold account4; cbn [rows4 rots4]. rewrite lookup_put_same, lookup_del_same by auto.
      split; [reflexivity|]. intros k Hk. now rewrite lookup_put_other, lookup_del_other by auto.
    + destruct (N.eqb_spec t 0) as [->|Hn].
      { eexists m, _; split; [reflexivity|]. split; [auto|]. unfold account4; rewrite EF; auto. }
      cbv zeta. rewrite N.mod_small by lia.
      eexists _, _. split; [reflexivity|].
      split; [apply wf_put4; auto; cbn; lia|].
      unfold account4; cbn [rows4 rots4]. rewrite lookup_put_same, lookup_del_same by auto.
      split; [reflexivity|]. intros k Hk. now rewrite lookup_put_other, lookup_del_other by auto.
  - unfold restore1_4. unfold account4 at 1.
    destruct (lookup id (rows4 m)) as [row|] eqn:EF.
    2:{ eexists m, _; split; [reflexivity|]. split; [auto|]. unfold account4; rewrite EF; auto. }
    destruct vok; cbn [negb].
    2:{ eexists m, _; split; [reflexivity|]. split; [auto|]. unfold account4; rewrite EF; auto. }
    rewrite pt_from_spec, EL.
    set (tt := (r4_tries row + 255) mod 256). specialize (HT _ _ EF).
    assert (Ett : tt = r4_tries row - 1).
    { subst tt. destruct (N.eqb_spec (r4_tries row) 1) as [E1|]; [rewrite E1; reflexivity|].
      replace (r4_tries row + 255) with (r4_tries row - 1 + 1 * 256) by lia.
      rewrite N.mod_add by lia. apply N.mod_small; lia. }
    clearbody tt. subst tt.
    assert (EA : restore_answer c id b row (lookup id (rots4 m)) (r4_tries row - 1) =
      match from_hash4 c (sha512 c (id ++ b)) with
      | None => (RspRestore1_4 S4_ERROR [] (r4_tries row - 1), None)
      | Some h => match blind_eval4 c h b (r4_oprf row) (r4_zero row) with
        | None => (RspRestore1_4 S4_ERROR [] (r4_tries row - 1), None)
        | Some e1 => match lookup id (rots4 m) with
          | None => (RspRestore1_4 S4_OK [(e1, r4_version row)] (r4_tries row - 1),
                     Some (R2State (r4_auth row) (r4_enc row) [] (r4_version row) 0 b))
          | Some r => match blind_eval4 c h b (sc_add c (rr_oprf r) (r4_oprf row)) (r4_zero row) with
             | None => (RspRestore1_4 S4_ERROR [] (r4_tries row - 1), None)
             | Some e2 => (RspRestore1_4 S4_OK [(e1, r4_version row); (e2, rr_version r)] (r4_tries row - 1),
                     Some (R2State (r4_auth row) (r4_enc row) (xor_bytes (r4_enc row) (rr_enc r))
                        (r4_version row) (rr_version r) b))
             end end end end).
    { unfold restore_answer. rewrite <- !blind_eval_spec.
      destruct (from_hash4 c _) eqn:EH; [|reflexivity].
      destruct (blind_eval4 c _ b (r4_oprf row) _); [|reflexivity].
      destruct (lookup id (rots4 m)); [|reflexivity]. now rewrite <- blind_eval_spec, EH, xor_bytes_spec. }
    rewrite EA; clear EA.
    destruct (N.eqb_spec (r4_tries row) 1) as [E1|E1].
    + rewrite E1; cbn [N.sub N.eqb Pos.pred_N Pos.sub Pos.sub_mask]. change (1 - 1) with 0. cbn [N.eqb].
      set (o := match lookup id (rots4 m) with Some _ => del id (rots4 m) | None => rots4 m end).
      assert (Eo : o = del id (rots4 m)).
      { subst o. destruct (lookup id (rots4 m)) eqn:ER; [reflexivity|]. now rewrite del_absent. }
      eexists _, _; split; [reflexivity|]. split; [now apply wf_rm4|].
      unfold account4; cbn [rows4 rots4]. rewrite lookup_del_same by auto. split; [reflexivity|].
      intros k Hk. rewrite Eo, !lookup_del_other by auto. reflexivity.
    + destruct (N.eqb_spec (r4_tries row - 1) 0); [lia|].
      eexists _, _; split; [reflexivity|]. split; [apply wf_put4; auto; cbn; lia|].
      unfold account4; cbn [rows4 rots4]. rewrite lookup_put_same. split; [reflexivity|].
      intros k Hk. now rewrite lookup_put_other.
  - unfold remove4. unfold account4 at 1. destruct (lookup id (rows4 m)) as [row|] eqn:EF.
    + eexists _, _; split; [reflexivity|]. split; [now apply wf_rm4|].
      unfold account4; cbn [rows4 rots4]. rewrite lookup_del_same by auto. split; [reflexivity|].
      intros k Hk. now rewrite !lookup_del_other.
    + eexists m, _; split; [reflexivity|]. split; [auto|]. unfold account4; rewrite EF; auto.
  - unfold query4, account4. destruct (lookup id (rows4 m)) as [row|] eqn:EF;
      eexists m, _; (split; [reflexivity|]); rewrite EF; auto.
  - apply andb_true_iff in EL as [EL He]. apply andb_true_iff in EL as [Hv Hs].
    unfold rotate_start4, arr_from, KEY_SIZE4. rewrite sc_from_spec, Hs, He. unfold account4 at 1.
    destruct (lookup id (rows4 m)) as [row|] eqn:EF.
    2:{ eexists m, _; split; [reflexivity|]. split; [auto|]. unfold account4; rewrite EF; auto. }
    destruct (lookup id (rots4 m)) as [rr|] eqn:ER.
    { eexists m, _; split; [reflexivity|]. split; [auto|]. unfold account4; rewrite EF, ER; auto. }
    destruct (v =? r4_version row).
    { eexists m, _; split; [reflexivity|]. split; [auto|]. unfold account4; rewrite EF, ER; auto. }
    destruct vok; cbn [negb].
    2:{ eexists m, _; split; [reflexivity|]. split; [auto|]. unfold account4; rewrite EF, ER; auto. }
    eexists _, _; split; [reflexivity|]. split; [apply wf_rot4; auto; congruence|].
    unfold account4; cbn [rows4 rots4]. rewrite EF, lookup_put_same. split; [reflexivity|].
    intros k Hk. now rewrite lookup_put_other.
  - unfold rotate_commit4. unfold account4 at 1.
    destruct (lookup id (rows4 m)) as [row|] eqn:EF.
    2:{ eexists m, _; split; [reflexivity|]. split; [auto|]. unfold account4; rewrite EF; auto. }
    destruct (lookup id (rots4 m)) as [rr|] eqn:ER.
    2:{ eexists m, _; split; [reflexivity|]. split; [auto|]. unfold account4; rewrite EF, ER; auto. }
    destruct (rr_version rr =? v); cbn [negb].
    2:{ eexists m, _; split; [reflexivity|]. split; [auto|]. unfold account4; rewrite EF, ER; auto. }
    destruct vok; cbn [negb].
    2:{ eexists m, _; split; [reflexivity|]. split; [auto|]. unfold account4; rewrite EF, ER; auto. }
    eexists _, _; split; [reflexivity|]. split; [apply wf_put4; auto; cbn; eauto|].
    unfold account4; cbn [rows4 rots4]. rewrite lookup_put_same, lookup_del_same by auto.
    split; [unfold rotated; now rewrite xor_bytes_spec|].
    intros k Hk. now rewrite lookup_put_other, lookup_del_other.
  - unfold rotate_rollback4. unfold account4 at 1.
    destruct (lookup id (rows4 m)) as [row|] eqn:EF.
    2:{ eexists m, _; split; [reflexivity|]. split; [auto|]. unfold account4; rewrite EF; auto. }
    destruct (lookup id (rots4 m)) as [rr|] eqn:ER.
    2:{ eexists m, _; split; [reflexivity|]. split; [auto|]. unfold account4; rewrite EF, ER; auto. }
    destruct (rr_version rr =? v); cbn [negb].
    2:{ eexists m, _; split; [reflexivity|]. split; [auto|]. unfold account4; rewrite EF, ER; auto. }
    destruct vok; cbn [negb].
    2:{ eexists m, _; split; [reflexivity|]. split; [auto|]. unfold account4; rewrite EF, ER; auto. }
    eexists _, _; split; [reflexivity|]. split; [apply wf_unrot4; auto|].
    unfold account4; cbn [rows4 rots4]. rewrite EF, lookup_del_same by auto. split; [reflexivity|].
    intros k Hk. now rewrite lookup_del_other.
Qed.

Definition key4 (i : in4) : bytes := l4_id (i4_log i).
Notation arun4 := (arun acct_step4).
Notation is_create4 := (is_create4 c). Notation is_reset4 := (is_reset4 c).
Notation is_remove4 := (is_remove4 c). Notation is_restore4 := (is_restore4 c).
Notation is_finish4 := (is_finish4 c). Notation reachable4 := (reachable4 c).

Lemma exec4_ok h m : wf_db4 m -> exists m' rs, exec4 m h = Ret (m', rs) /\ wf_db4 m'.
Proof. apply (exec_ok apply4 key4 account4 acct_step4 wf_db4); intros; now apply apply4_refines. Qed.
Lemma exec4_wf h m m' rs : wf_db4 m -> exec4 m h = Ret (m', rs) -> wf_db4 m'.
Proof. intros W E; destruct (exec4_ok h m W) as (m1 & r1 & E1 & W1); congruence. Qed.
Lemma reachable_wf4 m : reachable4 m -> wf_db4 m.
Proof. intros (h & rs & _ & E). eapply exec4_wf; eauto using wf_nil4. Qed.

Lemma exec4_last h i m m' rs : wf_db4 m ->
  exec4 m (h ++ [i]) = Ret (m', rs) ->
  last rs None = snd (acct_step4 (fst (arun4 (account4 (key4 i) m) (filter (for_id4 (key4 i)) h))) i) /\
  account4 (key4 i) m' = fst (acct_step4 (fst (arun4 (account4 (key4 i) m) (filter (for_id4 (key4 i)) h))) i).
Proof.
  intros WF H.
  destruct (exec_project_last apply4 key4 account4 acct_step4 wf_db4
              ltac:(intros; now apply apply4_refines) h i m m' rs WF H) as [rs0 [r [-> E]]].
  change (mine key4) with for_id4 in E.
  rewrite E, last_last; auto.
Qed.
Lemma fst_arun_cons4 a i h : fst (arun4 a (i :: h)) = fst (arun4 (fst (acct_step4 a i)) h).
Proof. cbn; destruct (acct_step4 a i) as [a1 r]; cbn; destruct (arun4 a1 h); reflexivity. Qed.
Lemma fst_arun_app4 a h1 h2 : fst (arun4 a (h1 ++ h2)) = fst (arun4 (fst (arun4 a h1)) h2).
Proof. rewrite arun_app; destruct (arun4 a h1) as [a1 r]; cbn; destruct (arun4 a1 h2); reflexivity. Qed.
Lemma filter_for_all4 id h i : In i (filter (for_id4 id) h) -> for_id4 id i = true.
Proof. intros H; apply filter_In in H; tauto. Qed.
Lemma req_of_for id p i : req_of c id p i = true -> for_id4 id i = true.
Proof. unfold req_of; now destruct (for_id4 id i). Qed.

(* --- C09: tries --- *)
Definition tries_of (a : acct4) : N := match a with None => 0 | Some (r, _) => r4_tries r end.
Definition live_ok (a : acct4) : Prop := a = None \/ 1 <= tries_of a.

Lemma step_tries4 id i a : live_ok a -> for_id4 id i = true ->
  is_reset4 id i = false -> is_remove4 id i = false ->
  live_ok (fst (acct_step4 a i)) /\
  tries_of (fst (acct_step4 a i)) = (if is_restore4 id i then tries_of a - 1 else tries_of a).
Proof.
  intros HL Hf H1 H2. unfold DB4Spec.is_reset4, DB4Spec.is_remove4, DB4Spec.is_restore4, req_of in *.
  rewrite Hf in *. unfold DB4Spec.acct_step4, live_ok in *.
  destruct (legal4 (i4_log i)); cbn [andb] in *; [|auto].
  destruct (l4_req (i4_log i)) as [t o au e z v|b|ap az v| | |v od ed|v|v|]; rewrite ?andb_false_r, ?andb_true_r;
    try discriminate.
  - destruct (N.eqb_spec t 0) as [->|]; [|discriminate].
    destruct a as [[r o']|]; cbn; [|auto]. split; [right; destruct HL as [|HL]; [discriminate|exact HL]|reflexivity].
  - destruct a as [[r o']|].
    + destruct (i4_vok i); [|cbn [fst]; auto]. cbn [fst tries_of].
      destruct HL as [|HL]; [discriminate|cbn in HL].
      destruct (N.eqb_spec (r4_tries r) 1); cbn [tries_of]; [split; [auto|lia]|].
      cbn. split; [right; lia|reflexivity].
    + cbn [fst tries_of]. destruct (i4_vok i); auto.
  - cbn [fst]; auto.
  - destruct a as [[r o']|]; cbn [fst]; auto.
  - destruct a as [[r [rr|]]|]; cbn [fst]; auto; destruct (v =? _); cbn [fst]; auto; destruct (i4_vok i); cbn [fst]; auto;
    (split; [right; destruct HL as [X|X]; [discriminate X|exact X]|reflexivity]).
  - destruct a as [[r [rr|]]|]; cbn [fst]; auto; destruct (negb _); cbn [fst]; auto; destruct (i4_vok i); cbn [fst]; auto;
    (split; [right; destruct HL as [X|X]; [discriminate X|exact X]|reflexivity]).
  - destruct a as [[r [rr|]]|]; cbn [fst]; auto; destruct (negb _); cbn [fst]; auto; destruct (i4_vok i); cbn [fst]; auto;
    (split; [right; destruct HL as [X|X]; [discriminate X|exact X]|reflexivity]).
  - cbn [fst]; auto.
Qed.

Lemma arun_tries4 id h : forall a, live_ok a -> (forall i, In i h -> for_id4 id i = true) ->
  none_of (is_reset4 id) h -> none_of (is_remove4 id) h ->
  live_ok (fst (arun4 a h)) /\ tries_of (fst (arun4 a h)) = tries_of a - count (is_restore4 id) h.
Proof.
  induction h as [|i h IH]; intros a HL Hf Hc Hr.
  - change (count (is_restore4 id) []) with 0. cbn [arun fst]. split; [auto|lia].
  - apply none_of_cons in Hc as [Hc Hc']. apply none_of_cons in Hr as [Hr Hr'].
    rewrite fst_arun_cons4, count_cons.
    destruct (step_tries4 id i a HL) as [L1 E1]; auto; [apply Hf; cbn; auto|].
    destruct (IH _ L1) as [L2 E2]; auto; [intros; apply Hf; cbn; auto|].
    split; [exact L2|]. rewrite E2, E1. destruct (is_restore4 id i); lia.
Qed.

Lemma after_reset4 id t o au e z v vc h0 h1 a : t <> 0 ->
  legal4 (Log4 id (Create4 t o au e z v)) = true ->
  none_of (is_reset4 id) h1 -> none_of (is_remove4 id) h1 ->
  let a' := fst (arun4 a (filter (for_id4 id) (h0 ++ In4 vc (Log4 id (Create4 t o au e z v)) :: h1))) in
  live_ok a' /\ tries_of a' = t - count (is_restore4 id) h1.
Proof.
  intros Ht L Hc Hr. cbv zeta. rewrite filter_app, fst_arun_app4. cbn [filter]. set (b := In4 vc _).
  assert (F : for_id4 id b = true) by (unfold for_id4; cbn; apply beq_refl).
  rewrite F, fst_arun_cons4.
  assert (ES : forall a0, fst (acct_step4 a0 b) = Some (Row4 au o e z v t, None)).
  { intros; unfold DB4Spec.acct_step4, b; cbn [i4_log l4_req]; rewrite L.
    assert (E0 : t =? 0 = false) by (apply N.eqb_neq; auto). destruct a0 as [[r0 o0]|]; rewrite E0; reflexivity. }
  rewrite ES.
  destruct (arun_tries4 id (filter (for_id4 id) h1) (Some (Row4 au o e z v t, None))) as [L1 E1].
  - right; cbn. lia.
  - intros; eapply filter_for_all4; eauto.
  - now apply none_of_filter.
  - now apply none_of_filter.
  - split; [exact L1|]. rewrite E1. cbn [tries_of r4_tries].
    now rewrite count_filter by (intros x; apply req_of_for).
Qed.

Lemma query_answer4 h0 h1 id t o au e z v vc vq m rs : t <> 0 ->
  legal4 (Log4 id (Create4 t o au e z v)) = true ->
  none_of (is_reset4 id) h1 -> none_of (is_remove4 id) h1 ->
  exec4 empty4 (h0 ++ In4 vc (Log4 id (Create4 t o au e z v)) :: h1 ++ [In4 vq (Log4 id Query4)]) = Ret (m, rs) ->
  let n := count (is_restore4 id) h1 in
  exists ver newver, last_answer rs = Some
    (if n <? t then RspQuery4 S4_OK (t - n) ver newver else RspQuery4 S4_MISSING 0 0 0, None).
Proof.
  intros Ht L Hc Hr H n. set (i := In4 vq _) in *. set (b := In4 vc _) in *.
  replace (h0 ++ b :: h1 ++ [i]) with ((h0 ++ b :: h1) ++ [i]) in H by (rewrite <- app_assoc; reflexivity).
  apply exec4_last in H as [H _]; [|apply wf_nil4]. change (key4 i) with id in H.
  destruct (after_reset4 id t o au e z v vc h0 h1 (account4 id empty4) Ht L Hc Hr) as [L1 E1].
  cbv zeta in L1, E1. fold b in L1, E1.
  set (a := fst (arun4 _ _)) in *. clearbody a. fold n in E1. unfold last_answer; rewrite H.
  unfold DB4Spec.acct_step4; subst i; cbn [i4_log l4_req].
  assert (Lq : legal4 (Log4 id Query4) = true).
  { unfold DB4Spec.legal4 in *; cbn [l4_id l4_req] in *. apply andb_true_iff in L as [-> _]. reflexivity. }
  rewrite Lq. destruct a as [[r o']|].
  - destruct L1 as [|L1]; [discriminate|]. cbn in L1, E1.
    destruct (N.ltb_spec n t); [|lia]. cbn. rewrite E1. eauto.
  - cbn in E1. destruct (N.ltb_spec n t); [lia|]. exists 0, 0. reflexivity.
Qed.

Lemma restore_answer4 h0 h1 id t o au e z v vc bl m rs : t <> 0 ->
  legal4 (Log4 id (Create4 t o au e z v)) = true -> is_point c bl = true ->
  none_of (is_reset4 id) h1 -> none_of (is_remove4 id) h1 ->
  exec4 empty4 (h0 ++ In4 vc (Log4 id (Create4 t o au e z v)) :: h1 ++ [In4 true (Log4 id (Restore1_4 bl))]) = Ret (m, rs) ->
  let n := count (is_restore4 id) h1 in
  if n <? t then
    exists s auth st, last_answer rs = Some (RspRestore1_4 s auth (t - n - 1), st) /\ (s = S4_OK \/ s = S4_ERROR)
  else last_answer rs = Some (RspRestore1_4 S4_MISSING [] 0, None).
Proof.
  intros Ht L Hp Hc Hr H n. set (i := In4 true _) in *. set (b := In4 vc _) in *.
  replace (h0 ++ b :: h1 ++ [i]) with ((h0 ++ b :: h1) ++ [i]) in H by (rewrite <- app_assoc; reflexivity).
  apply exec4_last in H as [H _]; [|apply wf_nil4]. change (key4 i) with id in H.
  destruct (after_reset4 id t o au e z v vc h0 h1 (account4 id empty4) Ht L Hc Hr) as [L1 E1].
  cbv zeta in L1, E1. fold b in L1, E1.
  set (a := fst (arun4 _ _)) in *. clearbody a. fold n in E1. unfold last_answer; rewrite H.
  unfold DB4Spec.acct_step4; subst i; cbn [i4_log l4_req i4_vok l4_id].
  assert (Lq : legal4 (Log4 id (Restore1_4 bl)) = true).
  { unfold DB4Spec.legal4 in *; cbn [l4_id l4_req] in *. apply andb_true_iff in L as [-> _]. now rewrite Hp. }
  rewrite Lq. destruct a as [[r o']|].
  - destruct L1 as [|L1]; [discriminate|]. cbn in L1, E1.
    destruct (N.ltb_spec n t); [|lia]. cbn [snd]. rewrite E1. unfold restore_answer.
    destruct (oprf c id bl (r4_oprf r) (r4_zero r)), o' as [rr|]; try (destruct (oprf c id bl (sc_add _ _ _) _)); eauto 8.
  - cbn in E1. destruct (N.ltb_spec n t); [lia|]. reflexivity.
Qed.

(* --- C10: rotation --- *)
Lemma with_tries_same r : with_tries r (r4_tries r) = r.
Proof. now destruct r. Qed.

Lemma step_pending4 id i r rr : for_id4 id i = true ->
  is_create4 id i = false -> is_remove4 id i = false -> is_finish4 id (rr_version rr) i = false ->
  fst (acct_step4 (Some (r, Some rr)) i) =
    if is_restore4 id i then (if r4_tries r =? 1 then None else Some (with_tries r (r4_tries r - 1), Some rr))
    else Some (r, Some rr).
Proof.
  intros Hf H1 H2 H3. unfold DB4Spec.is_create4, DB4Spec.is_remove4, DB4Spec.is_restore4, DB4Spec.is_finish4, req_of in *.
  rewrite Hf in *. unfold DB4Spec.acct_step4.
  destruct (legal4 (i4_log i)); cbn [andb] in *; [|reflexivity].
  destruct (l4_req (i4_log i)) as [t o au e z v|b|ap az v| | |v od ed|v|v|]; rewrite ?andb_false_r, ?andb_true_r;
    try discriminate; try reflexivity.
  - destruct (i4_vok i); reflexivity.
  - rewrite N.eqb_sym, H3. reflexivity.
  - rewrite N.eqb_sym, H3. reflexivity.
Qed.

Lemma arun_pending4 id rr h : forall r, (forall i, In i h -> for_id4 id i = true) ->
  none_of (is_create4 id) h -> none_of (is_remove4 id) h -> none_of (is_finish4 id (rr_version rr)) h ->
  count (is_restore4 id) h < r4_tries r ->
  fst (arun4 (Some (r, Some rr)) h) = Some (with_tries r (r4_tries r - count (is_restore4 id) h), Some rr).
Proof.
  induction h as [|i h IH]; intros r Hf Hc Hr Hs Hn.
  - change (count (is_restore4 id) []) with 0. cbn [arun fst]. now rewrite N.sub_0_r, with_tries_same.
  - apply none_of_cons in Hc as [Hc Hc']. apply none_of_cons in Hr as [Hr Hr']. apply none_of_cons in Hs as [Hs Hs'].
    rewrite count_cons in *.
    rewrite fst_arun_cons4, (step_pending4 id) by (auto; apply Hf; cbn; auto).
    destruct (is_restore4 id i).
    + destruct (N.eqb_spec (r4_tries r) 1); [lia|].
      rewrite IH by (auto; try (intros; apply Hf; cbn; auto); cbn; lia).
      cbn [r4_tries with_tries]. unfold with_tries; cbn. do 3 f_equal. lia.
    + rewrite IH by (auto; intros; apply Hf; cbn; auto). reflexivity.
Qed.

Lemma rotation_pending4 m id r v od ed h1 :
  wf_db4 m -> account4 id m = Some (r, None) ->
  legal4 (Log4 id (RotateStart4 v od ed)) = true -> v <> r4_version r ->
  none_of (is_create4 id) h1 -> none_of (is_remove4 id) h1 -> none_of (is_finish4 id v) h1 ->
  count (is_restore4 id) h1 < r4_tries r ->
  fst (arun4 (account4 id m) (filter (for_id4 id) (In4 true (Log4 id (RotateStart4 v od ed)) :: h1))) =
  Some (with_tries r (r4_tries r - count (is_restore4 id) h1), Some (RRow4 v od ed)).
Proof.
  intros W EA L Hv Hc Hr Hs Hn. cbn [filter]. set (b := In4 true _).
  assert (F : for_id4 id b = true) by (unfold for_id4; cbn; apply beq_refl).
  rewrite F, fst_arun_cons4, EA.
  assert (ES : fst (acct_step4 (Some (r, None)) b) = Some (r, Some (RRow4 v od ed))).
  { unfold DB4Spec.acct_step4, b; cbn [i4_log l4_req i4_vok]; rewrite L.
    destruct (N.eqb_spec v (r4_version r)); [contradiction|reflexivity]. }
  rewrite ES, (arun_pending4 id).
  - now rewrite count_filter by (intros x; apply req_of_for).
  - intros; eapply filter_for_all4; eauto.
  - now apply none_of_filter.
  - now apply none_of_filter.
  - now apply none_of_filter.
  - now rewrite count_filter by (intros x; apply req_of_for).
Qed.

Lemma rotation_ends4 m id r v od ed h1 (commit : bool) m' rs :
  wf_db4 m -> account4 id m = Some (r, None) ->
  legal4 (Log4 id (RotateStart4 v od ed)) = true -> v <> r4_version r ->
  none_of (is_create4 id) h1 -> none_of (is_remove4 id) h1 -> none_of (is_finish4 id v) h1 ->
  let n := count (is_restore4 id) h1 in n < r4_tries r ->
  exec4 m (In4 true (Log4 id (RotateStart4 v od ed)) :: h1 ++
     [In4 true (Log4 id (if commit then RotateCommit4 v else RotateRollback4 v))]) = Ret (m', rs) ->
  account4 id m' = Some (if commit then rotated c (with_tries r (r4_tries r - n)) (RRow4 v od ed)
                         else with_tries r (r4_tries r - n), None) /\
  last_answer rs = Some (if commit then RspRotateCommit4 S4_OK else RspRotateRollback4 S4_OK, None).
Proof.
  intros W EA L Hv Hc Hr Hs n Hn H.
  rewrite app_comm_cons in H. apply exec4_last in H as [H Hm]; [|exact W].
  set (i := In4 true (Log4 id (if commit then _ else _))) in *. change (key4 i) with id in *.
  rewrite (rotation_pending4 m id r v od ed h1) in H, Hm by auto.
  assert (Hl : legal4 (i4_log i) = true).
  { unfold DB4Spec.legal4 in *; subst i; cbn [i4_log l4_id l4_req] in *. apply andb_true_iff in L as [-> L].
    destruct commit; cbn [andb]; lia. }
  unfold DB4Spec.acct_step4 in H, Hm. rewrite Hl in H, Hm. unfold last_answer. rewrite H, Hm.
  subst i; destruct commit; cbn [i4_log l4_req i4_vok rr_version]; rewrite N.eqb_refl; auto.
Qed.

Lemma exec4_one m i m' rs : wf_db4 m -> exec4 m [i] = Ret (m', rs) ->
  rs = [snd (acct_step4 (account4 (key4 i) m) i)] /\ account4 (key4 i) m' = fst (acct_step4 (account4 (key4 i) m) i).
Proof.
  intros W H. destruct (exec4_last [] i m m' rs W H) as [E1 E2]. cbn [filter arun fst] in E1, E2.
  assert (HL := exec_length _ _ _ _ _ H). destruct rs as [|r [|? ?]]; try discriminate. cbn in E1. subst r. auto.
Qed.

Lemma pending_refuses4 m id r rr vk q m' rs : reachable4 m -> account4 id m = Some (r, Some rr) ->
  legal4 (Log4 id q) = true ->
  exec4 m [In4 vk (Log4 id q)] = Ret (m', rs) ->
  match q with
  | RotateStart4 _ _ _ => account4 id m' = account4 id m /\ rs = [Some (RspRotateStart4 S4_ALREADY_ROTATING, None)]
  | RotateCommit4 w => w <> rr_version rr ->
      account4 id m' = account4 id m /\ rs = [Some (RspRotateCommit4 S4_VERSION_MISMATCH, None)]
  | RotateRollback4 w => w <> rr_version rr ->
      account4 id m' = account4 id m /\ rs = [Some (RspRotateRollback4 S4_VERSION_MISMATCH, None)]
  | _ => True
  end.
Proof.
  intros HR EA L H. apply reachable_wf4 in HR. apply exec4_one in H as [E1 E2]; [|exact HR].
  change (key4 _) with id in *. rewrite EA in *. unfold DB4Spec.acct_step4 in *. cbn [i4_log l4_req i4_vok] in *.
  rewrite L in *. destruct q as [t o au e z v|b|ap az v| | |v od ed|v|v|]; auto; intros Hv;
    (destruct (N.eqb_spec (rr_version rr) v); [congruence|]); auto.
Qed.

Lemma restore_both4 m id r rr b e1 e2 : reachable4 m -> account4 id m = Some (r, Some rr) -> is_point c b = true ->
  length id = 16%nat -> 1 <= rr_version rr ->
  oprf c id b (r4_oprf r) (r4_zero r) = Some e1 ->
  oprf c id b (sc_add c (rr_oprf rr) (r4_oprf r)) (r4_zero r) = Some e2 ->
  let restore := In4 true (Log4 id (Restore1_4 b)) in
  let commit := In4 true (Log4 id (RotateCommit4 (rr_version rr))) in
  let rollback := In4 true (Log4 id (RotateRollback4 (rr_version rr))) in
  let t := r4_tries r - 1 in
  (forall m' rs, exec4 m [restore] = Ret (m', rs) ->
     exists st, last_answer rs = Some (RspRestore1_4 S4_OK [(e1, r4_version r); (e2, rr_version rr)] t, st)) /\
  (forall m' rs, exec4 m [commit; restore] = Ret (m', rs) ->
     exists st, last_answer rs = Some (RspRestore1_4 S4_OK [(e2, rr_version rr)] t, st)) /\
  (forall m' rs, exec4 m [rollback; restore] = Ret (m', rs) ->
     exists st, last_answer rs = Some (RspRestore1_4 S4_OK [(e1, r4_version r)] t, st)).
Proof.
  intros HR EA Hb Hid Hv O1 O2 restore commit rollback t. apply reachable_wf4 in HR.
  assert (L1 : legal4 (i4_log restore) = true).
  { unfold DB4Spec.legal4; cbn. now rewrite Hid, Hb. }
  assert (L2 : legal4 (i4_log commit) = true) by (unfold DB4Spec.legal4; cbn [i4_log commit l4_id l4_req]; rewrite Hid; cbn [Nat.eqb andb]; lia).
  assert (L3 : legal4 (i4_log rollback) = true) by (unfold DB4Spec.legal4; cbn [i4_log rollback l4_id l4_req]; rewrite Hid; cbn [Nat.eqb andb]; lia).
  assert (SR : forall r0 o0, snd (acct_step4 (Some (r0, o0)) restore) = Some (restore_answer c id b r0 o0 (r4_tries r0 - 1))).
  { intros. unfold DB4Spec.acct_step4. rewrite L1. reflexivity. }
  assert (FC : for_id4 id commit = true /\ for_id4 id rollback = true) by (unfold for_id4; cbn; now rewrite beq_refl).
  assert (SL2 : fst (acct_step4 (Some (r, Some rr)) commit) = Some (rotated c r rr, None)).
  { unfold DB4Spec.acct_step4. rewrite L2. cbn [commit i4_log l4_req i4_vok]. rewrite N.eqb_refl. reflexivity. }
  assert (SL3 : fst (acct_step4 (Some (r, Some rr)) rollback) = Some (r, None)).
  { unfold DB4Spec.acct_step4. rewrite L3. cbn [rollback i4_log l4_req i4_vok]. rewrite N.eqb_refl. reflexivity. }
  split; [|split]; intros m' rs H.
  - apply (exec4_last []) in H as [H _]; [|exact HR]. change (key4 restore) with id in H. cbn [filter arun fst] in H.
    rewrite EA, SR in H. unfold last_answer; rewrite H. unfold restore_answer. rewrite O1, O2. eauto.
  - apply (exec4_last [commit]) in H as [H _]; [|exact HR]. change (key4 restore) with id in H.
    cbn [filter] in H. rewrite (proj1 FC), fst_arun_cons4, EA, SL2 in H. cbn [arun fst] in H. rewrite SR in H. unfold last_answer; rewrite H. unfold restore_answer, rotated. cbn [r4_oprf r4_zero r4_version r4_tries].
    rewrite O2. eauto.
  - apply (exec4_last [rollback]) in H as [H _]; [|exact HR]. change (key4 restore) with id in H.
    cbn [filter] in H. rewrite (proj2 FC), fst_arun_cons4, EA, SL3 in H. cbn [arun fst] in H. rewrite SR in H. unfold last_answer; rewrite H. unfold restore_answer.
    rewrite O1. eauto.
Qed.

Lemma create_clean4 m id t o au e z v vc vq m' rs : wf_db4 m -> t <> 0 ->
  legal4 (Log4 id (Create4 t o au e z v)) = true ->
  exec4 m [In4 vc (Log4 id (Create4 t o au e z v)); In4 vq (Log4 id Query4)] = Ret (m', rs) ->
  last_answer rs = Some (RspQuery4 S4_OK t v 0, None).
Proof.
  intros W Ht L H. set (b := In4 vc _) in *. apply (exec4_last [b]) in H as [H _]; [|exact W].
  change (key4 _) with id in H. cbn [filter] in H.
  assert (F : for_id4 id b = true) by (unfold for_id4; cbn; apply beq_refl).
  rewrite F, fst_arun_cons4 in H. cbn [arun fst] in H.
  assert (ES : forall a0, fst (acct_step4 a0 b) = Some (Row4 au o e z v t, None)).
  { intros; unfold DB4Spec.acct_step4, b; cbn [i4_log l4_req]; rewrite L.
    assert (E0 : t =? 0 = false) by (apply N.eqb_neq; auto). destruct a0 as [[r0 o0]|]; rewrite E0; reflexivity. }
  rewrite ES in H. unfold last_answer; rewrite H. unfold DB4Spec.acct_step4; cbn [i4_log l4_req].
  assert (Lq : legal4 (Log4 id Query4) = true).
  { unfold DB4Spec.legal4 in *; cbn [l4_id l4_req] in *. apply andb_true_iff in L as [-> _]. reflexivity. }
  rewrite Lq. reflexivity.
Qed.

Lemma same_version4 m id r vk od ed m' rs : wf_db4 m -> account4 id m = Some (r, None) ->
  legal4 (Log4 id (RotateStart4 (r4_version r) od ed)) = true ->
  exec4 m [In4 vk (Log4 id (RotateStart4 (r4_version r) od ed))] = Ret (m', rs) ->
  account4 id m' = account4 id m /\ rs = [Some (RspRotateStart4 S4_DUPLICATE_VERSION, None)].
Proof.
  intros HR EA L H. apply exec4_one in H as [E1 E2]; [|exact HR].
  change (key4 _) with id in *. rewrite EA in *. unfold DB4Spec.acct_step4 in *. cbn [i4_log l4_req i4_vok] in *.
  rewrite L, N.eqb_refl in *. auto.
Qed.

(* --- converse: where an account comes from --- *)
Lemma arun_history4 id h r o :
  (forall i, In i h -> for_id4 id i = true) -> fst (arun4 None h) = Some (r, o) ->
  exists ha vc t op e v hb, h = ha ++ In4 vc (Log4 id (Create4 t op (r4_auth r) e (r4_zero r) v)) :: hb /\
    legal4 (Log4 id (Create4 t op (r4_auth r) e (r4_zero r) v)) = true /\
    none_of (is_create4 id) hb /\ none_of (is_remove4 id) hb.
Proof.
  revert r o; induction h as [|i h IH] using rev_ind; intros r o Hf H; [discriminate|].
  rewrite fst_arun_app4 in H; cbn [arun] in H.
  assert (Hf' : forall i, In i h -> for_id4 id i = true) by (intros; apply Hf, in_app_iff; auto).
  assert (Hi : for_id4 id i = true) by (apply Hf, in_app_iff; cbn; auto).
  set (a := fst (arun4 None h)) in *.
  assert (H' : fst (acct_step4 a i) = Some (r, o)) by (destruct (acct_step4 a i); exact H). clear H.
  destruct (is_create4 id i) eqn:EC.
  - unfold DB4Spec.is_create4, req_of in EC. rewrite Hi in EC. unfold DB4Spec.acct_step4 in H'.
    destruct i as [vc [id' req]]; cbn [i4_log l4_id l4_req i4_vok] in *.
    apply beq_eq in Hi; cbn in Hi; subst id'.
    destruct (legal4 (Log4 id req)) eqn:EL; [|discriminate]. cbn [andb] in EC.
    destruct req as [t op au e z v|b|ap az v| | |v od ed|v|v|]; try discriminate.
    assert (au = r4_auth r /\ z = r4_zero r) as [-> ->].
    { destruct a as [[r0 o0]|]; [|destruct (t =? 0)]; cbn in H'; try discriminate; injection H' as <- <-; auto. }
    exists h, vc, t, op, e, v, []. split; [reflexivity|]. repeat split; auto; intros ? [].
  - destruct (is_remove4 id i) eqn:ER.
    { unfold DB4Spec.is_remove4, req_of in ER; rewrite Hi in ER. unfold DB4Spec.acct_step4 in H'.
      destruct (legal4 (i4_log i)); [|discriminate]. destruct (l4_req (i4_log i)); discriminate. }
    assert (exists r1 o1, a = Some (r1, o1) /\ r4_auth r1 = r4_auth r /\ r4_zero r1 = r4_zero r)
      as (r1 & o1 & Ea & E1 & E2).
    { unfold DB4Spec.is_create4, DB4Spec.is_remove4, req_of in *. rewrite Hi in *. unfold DB4Spec.acct_step4 in H'.
      destruct (legal4 (i4_log i)); cbn [andb] in *; [|exists r, o; auto].
      destruct (l4_req (i4_log i)) as [t op au e z v|b|ap az v| | |v od ed|v|v|]; try discriminate;
        destruct a as [[r0 o0]|]; cbn [fst] in H'; try discriminate; exists r0, o0; (split; [reflexivity|]).
      - destruct (i4_vok i); [|cbn in H'; injection H' as <- <-; auto].
        cbn [fst] in H'. destruct (r4_tries r0 =? 1); [discriminate|]. injection H' as <- <-; auto.
      - injection H' as <- <-; auto.
      - injection H' as <- <-; auto.
      - destruct o0; [cbn in H'; injection H' as <- <-; auto|].
        destruct (v =? _); [cbn in H'; injection H' as <- <-; auto|].
        destruct (i4_vok i); cbn in H'; injection H' as <- <-; auto.
      - destruct o0; [|cbn in H'; injection H' as <- <-; auto].
        destruct (negb _); [cbn in H'; injection H' as <- <-; auto|].
        destruct (i4_vok i); cbn in H'; injection H' as <- <-; auto.
      - destruct o0; [|cbn in H'; injection H' as <- <-; auto].
        destruct (negb _); [cbn in H'; injection H' as <- <-; auto|].
        destruct (i4_vok i); cbn in H'; injection H' as <- <-; auto.
      - injection H' as <- <-; auto. }
    destruct (IH r1 o1 Hf' Ea) as (ha & vc & t & op & e & v & hb & -> & L & N1 & N2).
    rewrite E1, E2 in *.
    exists ha, vc, t, op, e, v, (hb ++ [i]). split; [now rewrite <- app_assoc|].
    split; [exact L|].
    split; apply none_of_app; split; auto; apply none_of_cons; split; auto; intros ? [].
Qed.

(* the state handed to the connection by an OK Restore1 holds the commitment of
   the account's last Create *)
Lemma restore1_commitment4 h id b v m rs auths t st :
  exec4 empty4 (h ++ [In4 v (Log4 id (Restore1_4 b))]) = Ret (m, rs) ->
  last_answer rs = Some (RspRestore1_4 S4_OK auths t, st) ->
  exists s h0 vc t0 op e z ver h1, st = Some s /\ r2_blinded s = b /\
    h = h0 ++ In4 vc (Log4 id (Create4 t0 op (r2_auth s) e z ver)) :: h1 /\
    legal4 (Log4 id (Create4 t0 op (r2_auth s) e z ver)) = true /\
    none_of (is_create4 id) h1 /\ none_of (is_remove4 id) h1.
Proof.
  intros H Hl. set (i := In4 v _) in *.
  apply exec4_last in H as [H1 _]; [|apply wf_nil4]. change (key4 i) with id in H1.
  unfold last_answer in Hl; rewrite Hl in H1; clear Hl.
  change (account4 id empty4) with (@None (row4 * option rrow4)) in H1.
  destruct (fst (arun4 None (filter (for_id4 id) h))) as [[r o]|] eqn:EA.
  2:{ unfold DB4Spec.acct_step4 in H1; subst i; cbn [i4_log l4_req] in H1. destruct (legal4 _); discriminate. }
  destruct (arun_history4 id _ _ _ ltac:(intros; eapply filter_for_all4; eauto) EA)
    as (ha & vc & t0 & op & e & ver & hb & Eh & L & N1 & N2).
  destruct (filter_split _ _ _ _ _ Eh) as (h0 & h1 & Eh1 & F1 & F2). subst h hb.
  apply none_of_unfilter in N1; [|intros x; apply req_of_for].
  apply none_of_unfilter in N2; [|intros x; apply req_of_for].
  unfold DB4Spec.acct_step4 in H1; subst i; cbn [i4_log i4_vok l4_req l4_id] in H1.
  destruct (legal4 (Log4 id (Restore1_4 b))); [|discriminate]. destruct v; [|discriminate].
  cbn [snd] in H1. unfold restore_answer in H1.
  assert (exists s, st = Some s /\ r2_blinded s = b /\ r2_auth s = r4_auth r) as (s & -> & Eb & Es).
  { destruct (oprf c id b (r4_oprf r) (r4_zero r)) as [e1|]; [|discriminate].
    destruct o as [rr|]; [destruct (oprf c id b (sc_add _ _ _) _); [|discriminate]|];
      injection H1; intros; subst; eexists; split; try reflexivity; auto. }
  exists s, h0, vc, t0, op, e, (r4_zero r), ver, h1. rewrite Es. repeat (split; [auto|]). auto.
Qed.

(* --- C05 / C06 / C14 --- *)
Lemma isolation4 id h m1 rs1 m2 rs2 :
  exec4 empty4 h = Ret (m1, rs1) -> exec4 empty4 (filter (for_id4 id) h) = Ret (m2, rs2) ->
  rs2 = map snd (filter (fun p => for_id4 id (fst p)) (combine h rs1)) /\
  account4 id m2 = account4 id m1.
Proof.
  apply (exec_noninterference apply4 key4 account4 acct_step4 wf_db4
     ltac:(intros; now apply apply4_refines) h empty4 id m1 rs1 m2 rs2 wf_nil4).
Qed.

Lemma step_none4 id i : for_id4 id i = true -> is_reset4 id i = false -> fst (acct_step4 None i) = None.
Proof.
  intros Hf Hc; unfold DB4Spec.is_reset4, req_of in Hc; rewrite Hf in Hc; unfold DB4Spec.acct_step4.
  destruct (legal4 (i4_log i)); [|reflexivity]. cbn [andb] in Hc.
  destruct (l4_req (i4_log i)); try reflexivity. destruct (max_tries =? 0); [reflexivity|discriminate].
Qed.
Lemma arun_none4 id h : (forall i, In i h -> for_id4 id i = true) ->
  none_of (is_reset4 id) h -> fst (arun4 None h) = None.
Proof.
  induction h as [|i h IH]; intros Hf Hc; [reflexivity|].
  apply none_of_cons in Hc as [Hc Hc']. rewrite fst_arun_cons4, (step_none4 id); auto.
  - apply IH; auto. intros; apply Hf; cbn; auto.
  - apply Hf; cbn; auto.
Qed.
Lemma removed_stays4 h0 h1 id vd i m rs :
  length id = 16%nat -> none_of (is_reset4 id) h1 ->
  for_id4 id i = true -> is_reset4 id i = false ->
  exec4 empty4 (h0 ++ In4 vd (Log4 id Remove4) :: h1 ++ [i]) = Ret (m, rs) ->
  last_answer rs = (if legal4 (i4_log i) then
    match l4_req (i4_log i) with
    | Create4 _ _ _ _ _ _ => Some (RspCreate4 S4_INVALID 0, None)
    | Restore1_4 _ => Some (RspRestore1_4 S4_MISSING [] 0, None)
    | Remove4 => Some (RspRemove4, None)
    | Query4 => Some (RspQuery4 S4_MISSING 0 0 0, None)
    | RotateStart4 _ _ _ => Some (RspRotateStart4 S4_MISSING, None)
    | RotateCommit4 _ => Some (RspRotateCommit4 S4_MISSING, None)
    | RotateRollback4 _ => Some (RspRotateRollback4 S4_MISSING, None)
    | Restore2_4 _ _ _ | Unset4 => None end else None) /\ account4 id m = None.
Proof.
  intros Lid Hb Fi Hbi H. set (b := In4 vd _) in *.
  replace (h0 ++ b :: h1 ++ [i]) with ((h0 ++ b :: h1) ++ [i]) in H
    by (rewrite <- app_assoc; reflexivity).
  apply exec4_last in H as [H Hm]; [|apply wf_nil4].
  assert (Ek : key4 i = id) by (now apply beq_eq). rewrite Ek in H, Hm.
  rewrite filter_app, fst_arun_app4 in H, Hm.
  assert (F : for_id4 id b = true) by (unfold for_id4; cbn; apply beq_refl).
  cbn [filter] in H, Hm; rewrite F, fst_arun_cons4 in H, Hm.
  assert (E0 : forall a0, fst (acct_step4 a0 b) = None).
  { intros; unfold DB4Spec.acct_step4; subst b; cbn [i4_log i4_vok l4_req]; unfold DB4Spec.legal4; cbn [l4_id l4_req].
    rewrite Lid; reflexivity. }
  rewrite E0, (arun_none4 id) in H, Hm; try (now apply none_of_filter); try (intros; eapply filter_for_all4; eauto).
  rewrite (step_none4 id) in Hm by auto. split; [|exact Hm].
  unfold last_answer; rewrite H. unfold DB4Spec.is_reset4, req_of in Hbi; rewrite Fi in Hbi. unfold DB4Spec.acct_step4.
  destruct (legal4 (i4_log i)) eqn:EL; [|reflexivity]. cbn [andb] in Hbi.
  destruct (l4_req (i4_log i)); try reflexivity. destruct (max_tries =? 0); [reflexivity|discriminate].
Qed.

Lemma no_crash4 m v l : wf_db4 m -> validate4 c l = E_OK -> run4 c m v l <> Crash.
Proof.
  intros HR HV HC.
  destruct (apply4_refines m (In4 v l) HR) as (m' & r & E & _).
  unfold DB4.apply4 in E; cbn [i4_log i4_vok] in E. rewrite HV, HC in E; discriminate.
Qed.

(* --- C11: one connection --- *)
Lemma sess_run_app hh aid es1 : forall s es2,
  sess_run4 c hh aid s (es1 ++ es2) =
  let (s1, l1) := sess_run4 c hh aid s es1 in let (s2, l2) := sess_run4 c hh aid s1 es2 in (s2, l1 ++ l2).
Proof.
  induction es1 as [|e es1 IH]; intros s es2; cbn.
  - destruct (sess_run4 c hh aid s es2); reflexivity.
  - destruct (sess_step4 c hh aid s e) as [s1 a]. rewrite IH.
    destruct (sess_run4 c hh aid s1 es1) as [s2 l2]. destruct (sess_run4 c hh aid s2 es2); reflexivity.
Qed.

Lemma sess_state hh aid es st : fst (sess_run4 c hh aid None es) = Some st ->
  exists es0 auths t o es1, es = es0 ++ SEff4 (RspRestore1_4 S4_OK auths t, o) :: es1 /\
    none_of is_request es1 /\ none_of is_restore1_ok es1 /\
    st = match o with Some x => x | None => R2State [] [] [] 0 0 [] end.
Proof.
  revert st; induction es as [|e es IH] using rev_ind; intros st H; [discriminate|].
  rewrite sess_run_app in H. destruct (sess_run4 c hh aid None es) as [s l] eqn:E. cbn in H.
  destruct e as [r|[resp o]].
  - destruct r; cbn in H; discriminate.
  - assert (HH : (exists auths t, resp = RspRestore1_4 S4_OK auths t /\
        st = match o with Some x => x | None => R2State [] [] [] 0 0 [] end) \/
        (s = Some st /\ is_restore1_ok (SEff4 (resp, o)) = false)).
    { destruct resp as [s0 ?|s0 ? ?| | | | | |]; cbn in H; try (right; split; [exact H|reflexivity]).
      destruct s0; cbn in H; try (right; split; [exact H|reflexivity]). left; do 2 eexists; split; [reflexivity|congruence]. }
    destruct HH as [(auths & t & -> & ->)|[-> Hn]].
    + exists es, auths, t, o, []. repeat split; intros ? [].
    + destruct (IH st eq_refl) as (es0 & auths & t & o' & es1 & -> & N1 & N2 & E1).
      exists es0, auths, t, o', (es1 ++ [SEff4 (resp, o)]). split; [now rewrite <- app_assoc|].
      repeat split; auto; apply none_of_app; split; auto; apply none_of_cons; split; auto; intros ? [].
Qed.

Lemma restore2_ok hh ap az v st share : restore2_4 c hh ap az v st = RspRestore2_4 S4_OK share ->
  proof_ok c hh (r2_auth st) (r2_blinded st) ap az /\
  (v = r2_version st /\ share = r2_enc st \/ v <> r2_version st /\ v = r2_new_version st /\ share = r2_new_enc st).
Proof.
  unfold restore2_4, proof_ok. rewrite sc_from_spec, !pt_from_spec.
  destruct (is_scalar c az); [|discriminate].
  destruct (sbase4 c az) as [l|]; [|discriminate].
  destruct (is_point c (r2_auth st)); [|discriminate].
  destruct (smul4 c _ _) as [r|]; [|discriminate].
  destruct (is_point c ap); [|discriminate].
  destruct (padd4 c r ap) as [r2|] eqn:EP; [|discriminate].
  rewrite ct_equals_spec. destruct (beq_spec l r2) as [->|]; [|discriminate].
  intros H. split; [exists r2, r; repeat split; auto|].
  destruct (N.eqb_spec v (r2_version st)); [injection H; auto|].
  destruct (N.eqb_spec v (r2_new_version st)); [injection H; auto|discriminate].
Qed.

Lemma restore2_gated hh aid es ap az v share :
  last (snd (sess_run4 c hh aid None (es ++ [SReq4 (Restore2_4 ap az v)]))) SA_Continue =
    SA_Resp (RspRestore2_4 S4_OK share) ->
  exists es0 auths t o es1,
    es = es0 ++ SEff4 (RspRestore1_4 S4_OK auths t, o) :: es1 /\
    none_of is_request es1 /\ none_of is_restore1_ok es1 /\
    let st := match o with Some x => x | None => R2State [] [] [] 0 0 [] end in
    proof_ok c hh (r2_auth st) (r2_blinded st) ap az /\
    (v = r2_version st /\ share = r2_enc st \/ v <> r2_version st /\ v = r2_new_version st /\ share = r2_new_enc st).
Proof.
  rewrite sess_run_app. destruct (sess_run4 c hh aid None es) as [s l] eqn:E. cbn [sess_run4 sess_step4 snd].
  rewrite last_last. destruct (negb _); [discriminate|].
  intros H. injection H as H.
  destruct s as [st|]; [|discriminate]. destruct (_ || _)%bool; [discriminate|].
  destruct (sess_state hh aid es st) as (es0 & auths & t & o & es1 & Ees & N1 & N2 & Est); [now rewrite E|].
  exists es0, auths, t, o, es1. rewrite <- Est. do 3 (split; [auto|]). now apply restore2_ok.
Qed.

End Proofs4.
