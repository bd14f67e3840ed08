From Verif Require Import DB2 DB2Spec Keyed UtilProofs.

(* ------------------------------------------------------------------ *)
(* Invariant and abstraction *)

Definition wf_row (r : row2) : Prop :=
  (r_state r = POPULATED \/ r_state r = AVAILABLE) /\
  1 <= r_tries r <= 255 /\
  16 <= r_dsize r <= 48 /\
  (exists d, r_data r = d ++ zeros (48 - length d) /\ N.of_nat (length d) = r_dsize r) /\
  length (r_pin r) = 32%nat.
Definition wf_db (m : db2) : Prop :=
  sorted m /\ forall k r, lookup k m = Some r -> wf_row r /\ length k = 16%nat.

Definition acct_of_row (r : row2) : acct :=
  Acct (firstn (N.to_nat (r_dsize r)) (r_data r)) (r_pin r) (r_tries r)
       (r_state r =? AVAILABLE).
Definition acct_of (k : bytes) (m : db2) : acct :=
  match lookup k m with None => NoAcct | Some r => acct_of_row r end.

Lemma wf_nil : wf_db [].
Proof. split; cbn; [auto|discriminate]. Qed.

Lemma wf_put k r m : wf_db m -> wf_row r -> length k = 16%nat -> wf_db (put k r m).
Proof.
  intros [S H] Hr Hk; split; [now apply sorted_put|].
  intros k' r'; destruct (beq_spec k' k) as [->|Hne].
  - rewrite lookup_put_same; intros E; injection E as <-; auto.
  - rewrite lookup_put_other by auto; apply H.
Qed.

Lemma wf_del k m : wf_db m -> wf_db (del k m).
Proof.
  intros [S H]; split; [now apply sorted_del|].
  intros k' r'; destruct (beq_spec k' k) as [->|Hne].
  - now rewrite lookup_del_same.
  - rewrite lookup_del_other by auto; apply H.
Qed.

Lemma acct_of_put_same k r m : acct_of k (put k r m) = acct_of_row r.
Proof. unfold acct_of; now rewrite lookup_put_same. Qed.
Lemma acct_of_put_other k k' r m : k' <> k -> acct_of k' (put k r m) = acct_of k' m.
Proof. intros; unfold acct_of; now rewrite lookup_put_other. Qed.
Lemma acct_of_del_same k m : sorted m -> acct_of k (del k m) = NoAcct.
Proof. intros; unfold acct_of; now rewrite lookup_del_same. Qed.
Lemma acct_of_del_other k k' m : k' <> k -> acct_of k' (del k m) = acct_of k' m.
Proof. intros; unfold acct_of; now rewrite lookup_del_other. Qed.

Lemma wf_row_data r : wf_row r ->
  length (r_data r) = 48%nat /\ (N.to_nat (r_dsize r) <= 48)%nat /\
  length (firstn (N.to_nat (r_dsize r)) (r_data r)) = N.to_nat (r_dsize r) /\
  r_data r = firstn (N.to_nat (r_dsize r)) (r_data r) ++ zeros (48 - N.to_nat (r_dsize r)).
Proof.
  intros (_ & _ & Hd & (d & Ed & El) & _).
  assert (El' : N.to_nat (r_dsize r) = length d) by lia.
  assert (Hlen : length (r_data r) = 48%nat) by
    (rewrite Ed, app_length, zeros_length; lia).
  assert (Hf : firstn (N.to_nat (r_dsize r)) (r_data r) = d).
  { rewrite El', Ed, firstn_app, firstn_all, Nat.sub_diag; cbn; apply app_nil_r. }
  rewrite Hf; repeat split; try lia. now rewrite El'.
Qed.

Lemma beq_firstn_prefix d x n :
  length d = n ->
  (Nat.leb n (length x) && beq d (firstn n x))%bool = is_prefix d x.
Proof.
  intros <-; unfold is_prefix.
  destruct (Nat.leb_spec (length d) (length x)) as [H|H]; cbn; [reflexivity|].
  symmetry; apply beq_neq; intros E.
  apply (f_equal (@length N)) in E. rewrite firstn_length in E; lia.
Qed.

Lemma validate2_legal l : legal l = match validate2 l with E_OK => true | _ => false end.
Proof.
  unfold legal, validate2, BACKUP_ID_SIZE, PIN_SIZE, MAX_DATA_SIZE, MIN_DATA_SIZE, MAX_TRIES, MIN_TRIES.
  destruct (Nat.eqb_spec (length (l_id l)) 16) as [Hid|]; [|reflexivity]; cbn [negb andb].
  destruct (l_req l) as [data pin mt|guess|x| | |]; try reflexivity.
  - destruct (Nat.eqb_spec (length pin) 32); [|reflexivity]; cbn [negb andb].
    destruct (Nat.ltb_spec 48 (length data)), (Nat.ltb_spec (length data) 16),
      (N.ltb_spec 255 mt), (N.ltb_spec mt 1); lia.
  - destruct (Nat.eqb_spec (length guess) 32); reflexivity.
  - destruct (Nat.ltb_spec 48 (length x)), (Nat.ltb_spec (length x) 16); lia.
Qed.

Lemma apply2_refines m i : wf_db m ->
  exists m' r, apply2 m i = Ret (m', r) /\ wf_db m' /\
  acct_step (acct_of (l_id (i_log i)) m) i = (acct_of (l_id (i_log i)) m', r) /\
  (forall k, k <> l_id (i_log i) -> acct_of k m' = acct_of k m).
Proof.
  intros WF; destruct i as [vok [id req]]; unfold apply2, acct_step; rewrite validate2_legal;
    cbn [i_log i_vok l_id l_req].
  destruct (validate2 _) eqn:EV; try (now exists m, None).
  unfold run2; rewrite EV; cbn [l_req l_id].
  unfold validate2 in EV; cbn [l_id l_req] in EV.
  unfold BACKUP_ID_SIZE, PIN_SIZE, MAX_DATA_SIZE, MIN_DATA_SIZE, MAX_TRIES, MIN_TRIES in EV.
  destruct (Nat.eqb_spec (length id) 16) as [Hid|]; [|discriminate]; cbn [negb] in EV.
  destruct WF as [HS HW]. assert (WF : wf_db m) by (split; auto).
  destruct req as [data pin mt|guess|x| | |].
  - (* Backup *)
    destruct (Nat.eqb_spec (length pin) 32) as [Hpin|]; [|discriminate]; cbn [negb] in EV.
    destruct (Nat.ltb_spec 48 (length data)) as [|Hmax]; [discriminate|].
    destruct (Nat.ltb_spec (length data) 16) as [|Hmin]; [discriminate|].
    destruct (N.ltb_spec 255 mt) as [|Htmax]; [discriminate|].
    destruct (N.ltb_spec mt 1) as [|Htmin]; [discriminate|]. clear EV.
    unfold backup2, clear2; cbn [r_data r_pin].
    rewrite !copy_into_ok by (rewrite zeros_length; unfold MAX_DATA_SIZE, PIN_SIZE; lia).
    rewrite !skipn_zeros; unfold MAX_DATA_SIZE, PIN_SIZE.
    set (row := Row2 _ _ _ _ _).
    assert (Hb : blen data mod 256 = N.of_nat (length data)) by (unfold blen; lia).
    assert (HR : wf_row row).
    { subst row; unfold wf_row; cbn [r_state r_tries r_dsize r_data r_pin]. rewrite Hb.
      split; [now left|]. split; [lia|]. split; [lia|].
      split; [exists data; auto|]. rewrite app_length, zeros_length; lia. }
    exists (put id row m), (Some RspBackup); split; [reflexivity|].
    split; [now apply wf_put|]. split.
    + rewrite acct_of_put_same; subst row; unfold acct_of_row; cbn [r_dsize r_data r_pin r_tries r_state].
      rewrite Hb, Nat2N.id, firstn_app, firstn_all, Nat.sub_diag; cbn [firstn]; rewrite app_nil_r.
      rewrite Hpin, Nat.sub_diag; cbn [zeros repeat]; rewrite app_nil_r.
      rewrite N.mod_small by lia. reflexivity.
    + intros k Hk; now apply acct_of_put_other.
  - (* Restore *)
    clear EV. unfold restore2, acct_of. destruct (lookup id m) as [row|] eqn:EF.
    2:{ exists m, (Some (RspRestore RS_MISSING [] 0)); rewrite EF; auto. }
    destruct (HW _ _ EF) as [HR _]. destruct (wf_row_data _ HR) as (HL & Hd & HLf & _).
    unfold acct_of_row at 1.
    destruct (r_state row =? AVAILABLE) eqn:EA; cbn [negb].
    2:{ eexists m, _; rewrite EF; unfold acct_of_row; rewrite EA; auto. }
    destruct vok; cbn [negb].
    2:{ eexists m, _; rewrite EF; unfold acct_of_row; rewrite EA; auto. }
    rewrite ct_equals_spec.
    destruct (beq guess (r_pin row)) eqn:EG.
    + destruct (Nat.ltb_spec (length (r_data row)) (N.to_nat (r_dsize row))) as [|_]; [lia|].
      eexists m, _; rewrite EF; unfold acct_of_row; rewrite EA; auto.
    + destruct HR as (Hst & Ht & Hds & Hdat & Hpin).
      destruct (N.eqb_spec (r_tries row) 1) as [E1|E1].
      * assert (E0 : (r_tries row + 255) mod 256 = 0) by (rewrite E1; reflexivity).
        rewrite E0; cbn [N.eqb].
        eexists (del id m), _; split; [reflexivity|].
        split; [now apply wf_del|]. rewrite lookup_del_same by auto. split; [reflexivity|].
        intros k Hk; now rewrite lookup_del_other.
      * assert (E0 : (r_tries row + 255) mod 256 = r_tries row - 1) by lia.
        rewrite E0. destruct (N.eqb_spec (r_tries row - 1) 0) as [|_]; [lia|].
        eexists (put id _ m), _; split; [reflexivity|]. split.
        { apply wf_put; auto. repeat split; cbn; auto; lia. }
        rewrite lookup_put_same; unfold acct_of_row; cbn. rewrite EA. split; [reflexivity|].
        intros k Hk; now rewrite lookup_put_other.
  - (* Expose *)
    clear EV. unfold expose2, acct_of. destruct (lookup id m) as [row|] eqn:EF.
    2:{ eexists m, _; rewrite EF; auto. }
    destruct (HW _ _ EF) as [HR _]. destruct (wf_row_data _ HR) as (HL & Hd & HLf & _).
    unfold acct_of_row at 1.
    destruct vok; cbn [negb andb].
    2:{ eexists m, _; rewrite EF; auto. }
    rewrite ct_equals_prefix_spec, HL, (proj2 (Nat.leb_le _ _) Hd); cbn [andb].
    rewrite (beq_firstn_prefix _ x _ HLf).
    destruct (is_prefix _ x) eqn:EP.
    2:{ eexists m, _; rewrite EF; auto. }
    assert (HP : ((r_state row =? POPULATED) || (r_state row =? AVAILABLE))%bool = true).
    { destruct HR as ([-> | ->] & _); reflexivity. }
    rewrite HP. eexists (put id _ m), _; split; [reflexivity|]. split.
    { apply wf_put; auto. destruct HR as (Hst & Ht & Hds & Hdat & Hpin).
      repeat split; cbn; auto; lia. }
    rewrite lookup_put_same; unfold acct_of_row; cbn. split; [reflexivity|].
    intros k Hk; now rewrite lookup_put_other.
  - (* Delete *)
    clear EV. unfold delete2. destruct (lookup id m) as [row|] eqn:EF.
    + eexists (del id m), _; split; [reflexivity|]. split; [now apply wf_del|].
      rewrite acct_of_del_same by auto; split; [reflexivity|]. intros; now apply acct_of_del_other.
    + eexists m, _; split; [reflexivity|]. split; [auto|]. unfold acct_of; rewrite EF; auto.
  - (* Tries *)
    clear EV. unfold tries2, acct_of. destruct (lookup id m) as [row|] eqn:EF;
      eexists m, _; rewrite EF; auto.
  - discriminate.
Qed.

(* ------------------------------------------------------------------ *)
(* Runs of one account *)

Definition key2 (i : in2) : bytes := l_id (i_log i).
Notation arun2 := (arun acct_step).

Lemma exec2_ok h m : wf_db m -> exists m' rs, exec2 m h = Ret (m', rs) /\ wf_db m'.
Proof. apply (exec_ok apply2 key2 acct_of acct_step wf_db); intros; now apply apply2_refines. Qed.

Lemma exec2_last h i m m' rs : wf_db m ->
  exec2 m (h ++ [i]) = Ret (m', rs) ->
  last rs None = snd (acct_step (fst (arun2 (acct_of (key2 i) m) (filter (for_id (key2 i)) h))) i) /\
  acct_of (key2 i) m' = fst (acct_step (fst (arun2 (acct_of (key2 i) m) (filter (for_id (key2 i)) h))) i).
Proof.
  intros WF H.
  destruct (exec_project_last apply2 key2 acct_of acct_step wf_db
              ltac:(intros; now apply apply2_refines) h i m m' rs WF H) as [rs0 [r [-> E]]].
  change (mine key2) with for_id in E.
  rewrite E, last_last; auto.
Qed.

Lemma filter_cons_for {i h} id : for_id id i = true -> filter (for_id id) (i :: h) = i :: filter (for_id id) h.
Proof. intros E; cbn; now rewrite E. Qed.

Lemma wrong_guess_for id pin i : wrong_guess id pin i = true -> for_id id i = true.
Proof. unfold wrong_guess; now destruct (for_id id i). Qed.

(* From an exposed record with k >= 1 tries, with no Backup/Delete. *)
Lemma arun_exposed id data pin k h : 1 <= k ->
  (forall i, In i h -> for_id id i = true) ->
  none_of (is_backup id) h -> none_of (is_delete id) h ->
  fst (arun2 (Acct data pin k true) h) =
    if count (wrong_guess id pin) h <? k
    then Acct data pin (k - count (wrong_guess id pin) h) true else NoAcct.
Proof.
  assert (HN : forall h, (forall i, In i h -> for_id id i = true) -> none_of (is_backup id) h ->
                fst (arun2 NoAcct h) = NoAcct).
  { clear; induction h as [|i h IH]; intros Hf Hb; [reflexivity|].
    apply none_of_cons in Hb as [Hb Hb']. cbn.
    assert (E : fst (acct_step NoAcct i) = NoAcct).
    { unfold is_backup in Hb. rewrite (Hf i (or_introl eq_refl)) in Hb. unfold acct_step.
      destruct (legal (i_log i)); [|reflexivity]. destruct (l_req (i_log i)); try reflexivity; discriminate. }
    destruct (acct_step NoAcct i) as [a r]; cbn in E; subst a.
    specialize (IH (fun i Hi => Hf i (or_intror Hi)) Hb').
    destruct (arun2 NoAcct h); exact IH. }
  revert k; induction h as [|i h IH]; intros k Hk Hf Hb Hd.
  - cbn; unfold count; cbn. destruct (N.ltb_spec 0 k); [f_equal; lia|lia].
  - apply none_of_cons in Hb as [Hb Hb']; apply none_of_cons in Hd as [Hd Hd'].
    assert (Hf' : forall i, In i h -> for_id id i = true) by (intros; apply Hf; cbn; auto).
    specialize (Hf i (or_introl eq_refl)).
    rewrite count_cons. cbn [arun].
    assert (E : fst (acct_step (Acct data pin k true) i) =
      if wrong_guess id pin i then (if k =? 1 then NoAcct else Acct data pin (k - 1) true)
      else Acct data pin k true).
    { unfold is_backup, is_delete in *; unfold wrong_guess; rewrite Hf in *. unfold acct_step.
      destruct (legal (i_log i)); [|reflexivity]. cbn [andb] in *.
      destruct (l_req (i_log i)) eqn:ER; try discriminate; cbn [andb fst].
      - destruct (i_vok i); cbn [negb andb]; [|reflexivity].
        destruct (beq pin0 pin); cbn [negb]; [reflexivity|]. destruct (k =? 1); reflexivity.
      - rewrite andb_false_r. destruct (i_vok i && is_prefix data data0)%bool; reflexivity.
      - now rewrite andb_false_r.
      - now rewrite andb_false_r. }
    destruct (acct_step (Acct data pin k true) i) as [a r]; cbn in E; subst a.
    set (n := count (wrong_guess id pin) h) in *.
    destruct (wrong_guess id pin i).
    + destruct (N.eqb_spec k 1) as [->|Hk1].
      * specialize (HN h Hf' Hb'). destruct (arun2 NoAcct h); cbn in *; subst.
        destruct (N.ltb_spec (1 + n) 1); [lia|reflexivity].
      * specialize (IH (k - 1) ltac:(lia) Hf' Hb' Hd'). fold n in IH.
        destruct (arun2 (Acct data pin (k - 1) true) h); cbn in *; subst.
        destruct (N.ltb_spec n (k - 1)), (N.ltb_spec (1 + n) k); try lia; [f_equal; lia|reflexivity].
    + specialize (IH k Hk Hf' Hb' Hd'). fold n in IH.
      destruct (arun2 (Acct data pin k true) h); cbn in *; subst.
      rewrite N.add_0_l. reflexivity.
Qed.

(* From an unexposed record, with no Backup, Delete or matching Expose. *)
Lemma arun_unexposed id data pin k h :
  (forall i, In i h -> for_id id i = true) ->
  none_of (is_backup id) h -> none_of (is_delete id) h -> none_of (good_expose id data) h ->
  fst (arun2 (Acct data pin k false) h) = Acct data pin k false.
Proof.
  induction h as [|i h IH]; intros Hf Hb Hd He; [reflexivity|].
  apply none_of_cons in Hb as [Hb Hb']; apply none_of_cons in Hd as [Hd Hd'];
  apply none_of_cons in He as [He He'].
  assert (Hf' : forall i, In i h -> for_id id i = true) by (intros; apply Hf; cbn; auto).
  specialize (Hf i (or_introl eq_refl)). cbn [arun].
  assert (E : fst (acct_step (Acct data pin k false) i) = Acct data pin k false).
  { unfold is_backup, is_delete, good_expose in *; rewrite Hf in *. unfold acct_step.
    destruct (legal (i_log i)); [|reflexivity]. cbn [andb] in *.
    destruct (l_req (i_log i)) eqn:ER; try discriminate; try reflexivity.
    rewrite He; reflexivity. }
  destruct (acct_step (Acct data pin k false) i) as [a r]; cbn in E; subst a.
  specialize (IH Hf' Hb' Hd' He'). destruct (arun2 (Acct data pin k false) h); exact IH.
Qed.

Lemma fst_arun_cons a i h : fst (arun2 a (i :: h)) = fst (arun2 (fst (acct_step a i)) h).
Proof. cbn; destruct (acct_step a i) as [a1 r]; cbn; destruct (arun2 a1 h); reflexivity. Qed.
Lemma fst_arun_app a h1 h2 : fst (arun2 a (h1 ++ h2)) = fst (arun2 (fst (arun2 a h1)) h2).
Proof. rewrite arun_app; destruct (arun2 a h1) as [a1 r]; cbn; destruct (arun2 a1 h2); reflexivity. Qed.

Lemma filter_for_all id h i : In i (filter (for_id id) h) -> for_id id i = true.
Proof. intros H; apply filter_In in H; tauto. Qed.

(* State of the account after Backup .. Expose .. *)
Lemma acct_after id data pin t vb x h0 h1 h2 a :
  legal (Log2 id (Backup data pin t)) = true ->
  legal (Log2 id (Expose x)) = true -> is_prefix data x = true ->
  none_of (is_backup id) (h1 ++ h2) -> none_of (is_delete id) (h1 ++ h2) ->
  none_of (good_expose id data) h1 ->
  let n := count (wrong_guess id pin) h2 in
  fst (arun2 a (filter (for_id id)
     (h0 ++ In2 vb (Log2 id (Backup data pin t)) :: h1 ++ In2 true (Log2 id (Expose x)) :: h2)))
  = if n <? t then Acct data pin (t - n) true else NoAcct.
Proof.
  intros Lb Le Hp Hb Hd He n.
  apply none_of_app in Hb as [Hb1 Hb2]; apply none_of_app in Hd as [Hd1 Hd2].
  rewrite filter_app, fst_arun_app.
  assert (F : forall v r, for_id id (In2 v (Log2 id r)) = true) by (intros; unfold for_id; cbn; apply beq_refl).
  cbn [filter]; rewrite F, fst_arun_cons. unfold acct_step at 2; cbn [i_log i_vok l_req]; rewrite Lb; cbn [fst].
  rewrite filter_app, fst_arun_app.
  rewrite (arun_unexposed id) by (try (intros; eapply filter_for_all; eassumption); now apply none_of_filter).
  cbn [filter]; rewrite F, fst_arun_cons. unfold acct_step at 2; cbn [i_log i_vok l_req]; rewrite Le, Hp; cbn [fst andb].
  rewrite (arun_exposed id).
  - rewrite count_filter by (intros; eapply wrong_guess_for; eauto). reflexivity.
  - unfold legal in Lb; cbn [l_id l_req] in Lb. repeat rewrite andb_true_iff in Lb. lia.
  - intros; eapply filter_for_all; eauto.
  - now apply none_of_filter.
  - now apply none_of_filter.
Qed.

Lemma arun_history id h d p k e :
  (forall i, In i h -> for_id id i = true) ->
  fst (arun2 NoAcct h) = Acct d p k e ->
  exists ha vb t hb, h = ha ++ In2 vb (Log2 id (Backup d p t)) :: hb /\
    legal (Log2 id (Backup d p t)) = true /\
    none_of (is_backup id) hb /\ none_of (is_delete id) hb /\
    (e = false -> none_of (good_expose id d) hb) /\
    (e = true -> exists hc x hd, hb = hc ++ In2 true (Log2 id (Expose x)) :: hd /\
                 legal (Log2 id (Expose x)) = true /\ is_prefix d x = true /\
                 none_of (good_expose id d) hc).
Proof.
  revert d p k e; induction h as [|i h IH] using rev_ind; intros d p k e Hf H; [discriminate|].
  rewrite fst_arun_app in H; cbn [arun] in H.
  assert (Hf' : forall i, In i h -> for_id id i = true) by (intros; apply Hf, in_app_iff; auto).
  assert (Hi : for_id id i = true) by (apply Hf, in_app_iff; cbn; auto).
  assert (Ei : forall r, l_req (i_log i) = r -> i_log i = Log2 id r).
  { intros r E; unfold for_id in Hi. apply beq_eq in Hi. destruct (i_log i); cbn in *; congruence. }
  set (a := fst (arun2 NoAcct h)) in *.
  assert (H' : fst (acct_step a i) = Acct d p k e) by (destruct (acct_step a i); exact H).
  clear H.
  (* the step either is a Backup, or keeps data and pin *)
  assert (Keep : forall k0 e0, a = Acct d p k0 e0 -> is_backup id i = false -> is_delete id i = false ->
     (e = false -> e0 = false /\ good_expose id d i = false) ->
     (e = true -> e0 = true \/ good_expose id d i = true) -> 
     exists ha vb t hb, h ++ [i] = ha ++ In2 vb (Log2 id (Backup d p t)) :: hb /\
    legal (Log2 id (Backup d p t)) = true /\
    none_of (is_backup id) hb /\ none_of (is_delete id) hb /\
    (e = false -> none_of (good_expose id d) hb) /\
    (e = true -> exists hc x hd, hb = hc ++ In2 true (Log2 id (Expose x)) :: hd /\
                 legal (Log2 id (Expose x)) = true /\ is_prefix d x = true /\
                 none_of (good_expose id d) hc)).
  { intros k0 e0 Ea Hb Hd He1 He2.
    destruct (IH _ _ _ _ Hf' Ea) as (ha & vb & t & hb & Eh & HL & Hnb & Hnd & HE0 & HE1).
    exists ha, vb, t, (hb ++ [i]). split; [rewrite Eh, <- app_assoc; reflexivity|].
    split; [exact HL|].
    split; [apply none_of_app; split; [auto|apply none_of_cons; split; [auto|intros ? []]]|].
    split; [apply none_of_app; split; [auto|apply none_of_cons; split; [auto|intros ? []]]|].
    split.
    - intros E; destruct (He1 E) as [E0 Eg]. apply none_of_app; split; [auto|].
      apply none_of_cons; split; [auto|intros ? []].
    - intros E; destruct e0.
      + destruct (HE1 eq_refl) as (hc & x & hd & Ehb & Hx1 & Hx2 & Hx3).
        exists hc, x, (hd ++ [i]). rewrite Ehb, <- app_assoc; auto.
      + destruct (He2 E) as [|Eg]; [discriminate|].
        specialize (HE0 eq_refl). unfold good_expose in Eg.
        destruct (l_req (i_log i)) as [| |x| | |] eqn:ER; try (rewrite andb_false_r in Eg; discriminate).
        repeat rewrite andb_true_iff in Eg. destruct Eg as (((_ & EL) & Ev) & Ep).
        specialize (Ei _ eq_refl). exists hb, x, []. destruct i as [v l]; cbn in *; subst v l.
        auto. }
  unfold acct_step in H'. destruct (legal (i_log i)) eqn:EL.
  2:{ cbn [fst] in H'. assert (G : is_backup id i = false /\ is_delete id i = false /\ good_expose id d i = false).
      { unfold is_backup, is_delete, good_expose; rewrite EL, Hi; auto. }
      destruct G as (G1 & G2 & G3). eapply Keep; eauto. }
  destruct (l_req (i_log i)) as [d' p' t'|g|x| | |] eqn:ER.
  - cbn in H'. injection H' as -> -> -> <-. specialize (Ei _ eq_refl).
    exists h, (i_vok i), k, []. destruct i as [v l]; cbn in *; subst l.
    split; [reflexivity|]. split; [exact EL|]. split; [intros ? []|]. split; [intros ? []|].
    split; [intros _ ? []|discriminate].
  - assert (G : is_backup id i = false /\ is_delete id i = false /\ good_expose id d i = false).
    { unfold is_backup, is_delete, good_expose; rewrite EL, Hi, ER, !andb_false_r; auto. }
    destruct G as (G1 & G2 & G3).
    destruct a as [|d0 p0 k0 e0] eqn:Ea; [discriminate|].
    destruct e0; [|cbn in H'; injection H' as -> -> -> <-; eapply Keep; eauto].
    destruct (i_vok i); cbn [negb] in H'; [|cbn in H'; injection H' as -> -> -> <-; eapply Keep; eauto; discriminate].
    destruct (beq g p0); [cbn in H'; injection H' as -> -> -> <-; eapply Keep; eauto; discriminate|].
    destruct (k0 =? 1); [discriminate|]. cbn in H'; injection H' as -> -> _ <-; eapply Keep; eauto; discriminate.
  - destruct a as [|d0 p0 k0 e0] eqn:Ea; [discriminate|].
    assert (G : is_backup id i = false /\ is_delete id i = false).
    { unfold is_backup, is_delete; rewrite EL, Hi, ER, !andb_false_r; auto. }
    destruct G as (G1 & G2).
    assert (G3 : good_expose id d0 i = (i_vok i && is_prefix d0 x)%bool).
    { unfold good_expose; rewrite EL, Hi, ER; reflexivity. }
    destruct (i_vok i && is_prefix d0 x)%bool; cbn in H'; injection H' as -> -> -> <-.
    + eapply Keep; eauto; discriminate.
    + eapply Keep; eauto.
  - discriminate.
  - assert (G : is_backup id i = false /\ is_delete id i = false /\ good_expose id d i = false).
    { unfold is_backup, is_delete, good_expose; rewrite EL, Hi, ER, !andb_false_r; auto. }
    destruct G as (G1 & G2 & G3).
    destruct a as [|d0 p0 k0 e0] eqn:Ea; [discriminate|]. cbn in H'; injection H' as -> -> -> <-; eapply Keep; eauto.
  - unfold legal in EL; rewrite ER, andb_false_r in EL; discriminate.
Qed.

Lemma is_backup_for id i : is_backup id i = true -> for_id id i = true.
Proof. unfold is_backup; now destruct (for_id id i). Qed.
Lemma is_delete_for id i : is_delete id i = true -> for_id id i = true.
Proof. unfold is_delete; now destruct (for_id id i). Qed.
Lemma good_expose_for id d i : good_expose id d i = true -> for_id id i = true.
Proof. unfold good_expose; now destruct (for_id id i). Qed.

(* ---- C01 / C02 ---- *)
Lemma guess_answer h0 h1 h2 id data pin t vb x guess v m rs :
  legal (Log2 id (Backup data pin t)) = true ->
  legal (Log2 id (Expose x)) = true -> is_prefix data x = true ->
  legal (Log2 id (Restore guess)) = true ->
  none_of (is_backup id) (h1 ++ h2) -> none_of (is_delete id) (h1 ++ h2) ->
  none_of (good_expose id data) h1 ->
  exec2 [] (h0 ++ In2 vb (Log2 id (Backup data pin t)) :: h1
            ++ In2 true (Log2 id (Expose x)) :: h2
            ++ [In2 v (Log2 id (Restore guess))]) = Ret (m, rs) ->
  let n := count (wrong_guess id pin) h2 in
  last_answer rs =
    if n <? t then
      if negb v then Some (RspRestore RS_ERROR [] 0)
      else if beq guess pin then Some (RspRestore RS_OK data (t - n))
      else if n + 1 <? t then Some (RspRestore RS_PIN_MISMATCH [] (t - n - 1))
      else Some (RspRestore RS_MISSING [] 0)
    else Some (RspRestore RS_MISSING [] 0).
Proof.
  intros Lb Le Hp Lr Hb Hd He H n.
  set (i := In2 v _) in *. set (b := In2 vb _) in *. set (e := In2 true _) in *.
  replace (h0 ++ b :: h1 ++ e :: h2 ++ [i]) with ((h0 ++ b :: h1 ++ e :: h2) ++ [i]) in H
    by (repeat (rewrite <- app_assoc; cbn [app]); reflexivity).
  apply exec2_last in H as [H _]; [|apply wf_nil].
  change (key2 i) with id in H. unfold last_answer; rewrite H. subst b e.
  rewrite acct_after by assumption. fold n.
  unfold acct_step; subst i; cbn [i_log i_vok l_req]; rewrite Lr.
  destruct (N.ltb_spec n t) as [Hn|Hn]; [|reflexivity].
  destruct v; cbn [negb]; [|reflexivity]. destruct (beq guess pin); [reflexivity|].
  destruct (N.eqb_spec (t - n) 1), (N.ltb_spec (n + 1) t); try lia; reflexivity.
Qed.

Lemma restore_ok_history h id guess v m rs d k :
  exec2 [] (h ++ [In2 v (Log2 id (Restore guess))]) = Ret (m, rs) ->
  last_answer rs = Some (RspRestore RS_OK d k) ->
  exists h0 vb t h1 x h2,
    h = h0 ++ In2 vb (Log2 id (Backup d guess t)) :: h1 ++ In2 true (Log2 id (Expose x)) :: h2 /\
    legal (Log2 id (Backup d guess t)) = true /\
    is_prefix d x = true /\
    none_of (is_backup id) (h1 ++ h2) /\ none_of (is_delete id) (h1 ++ h2) /\
    count (wrong_guess id guess) h2 < t /\
    k = t - count (wrong_guess id guess) h2.
Proof.
  intros H Hl. set (i := In2 v _) in *.
  pose proof (exec2_last h i [] m rs wf_nil H) as [H1 _]. change (key2 i) with id in H1.
  unfold last_answer in Hl; rewrite Hl in H1; clear Hl.
  change (acct_of id []) with NoAcct in H1.
  destruct (fst (arun2 NoAcct (filter (for_id id) h))) as [|d0 p0 k0 e0] eqn:EA.
  { unfold acct_step in H1; subst i; cbn [i_log l_req] in H1. destruct (legal _); discriminate. }
  unfold acct_step in H1; subst i; cbn [i_log i_vok l_req] in H1.
  destruct (legal (Log2 id (Restore guess))) eqn:EL; [|discriminate].
  destruct e0; [|discriminate]. destruct v; [|discriminate]; cbn [negb] in H1.
  destruct (beq guess p0) eqn:EG; [|destruct (k0 =? 1); discriminate].
  apply beq_eq in EG; subst p0. cbn in H1; injection H1 as <- <-.
  destruct (arun_history id _ _ _ _ _ ltac:(intros; eapply filter_for_all; eauto) EA)
    as (ha & vb & t & hb & Eh & HL & Hnb & Hnd & _ & HE1).
  destruct (HE1 eq_refl) as (hc & x & hd & -> & Hx1 & Hx2 & Hx3). clear HE1.
  destruct (filter_split _ _ _ _ _ Eh) as (h0 & h' & Eh1 & F1 & F2).
  destruct (filter_split _ _ _ _ _ F2) as (h1 & h2 & Eh2 & F3 & F4). subst h h'.
  apply none_of_app in Hnb as [Hnb1 Hnb2]; apply none_of_cons in Hnb2 as [_ Hnb2].
  apply none_of_app in Hnd as [Hnd1 Hnd2]; apply none_of_cons in Hnd2 as [_ Hnd2].
  rewrite <- F3 in Hnb1, Hnd1, Hx3. rewrite <- F4 in Hnb2, Hnd2.
  apply none_of_unfilter in Hnb1, Hnb2; [|apply is_backup_for|apply is_backup_for].
  apply none_of_unfilter in Hnd1, Hnd2; [|apply is_delete_for|apply is_delete_for].
  apply none_of_unfilter in Hx3; [|apply good_expose_for].
  assert (B : none_of (is_backup id) (h1 ++ h2)) by (apply none_of_app; auto).
  assert (D : none_of (is_delete id) (h1 ++ h2)) by (apply none_of_app; auto).
  pose proof (acct_after id d guess t vb x h0 h1 h2 NoAcct HL Hx1 Hx2 B D Hx3) as Hst.
  cbn zeta in Hst.
  rewrite EA in Hst. destruct (N.ltb_spec (count (wrong_guess id guess) h2) t) as [Hn|]; [|discriminate].
  injection Hst as Hst.
  exists h0, vb, t, h1, x, h2. repeat split; auto.
Qed.

(* In every other case a Restore carries no data. *)
Lemma restore_data_only_ok h id guess v m rs s d k :
  exec2 [] (h ++ [In2 v (Log2 id (Restore guess))]) = Ret (m, rs) ->
  last_answer rs = Some (RspRestore s d k) -> s <> RS_OK -> d = [].
Proof.
  intros H Hl Hs. apply exec2_last in H as [H _]; [|apply wf_nil].
  unfold last_answer in Hl; rewrite Hl in H. revert H.
  generalize (fst (arun2 (acct_of (key2 (In2 v (Log2 id (Restore guess)))) [])
        (filter (for_id (key2 (In2 v (Log2 id (Restore guess))))) h))).
  intros a; unfold acct_step; cbn [i_log i_vok l_req]. destruct (legal _); [|discriminate].
  destruct a as [|d0 p0 k0 [|]]; cbn; try congruence.
  destruct v; cbn; try congruence. destruct (beq guess p0); cbn; try congruence.
  destruct (k0 =? 1); cbn; congruence.
Qed.

(* ---- C03 ---- *)
Lemma apply2_wf m i m' r : wf_db m -> apply2 m i = Ret (m', r) -> wf_db m'.
Proof.
  intros WF H; destruct (apply2_refines m i WF) as (m1 & r1 & E & W & _); congruence.
Qed.

(* what an observer can ask about an account: the answer of a Tries request *)
Definition tries_of (m : db2) (id : bytes) : option N :=
  match acct_of id m with Acct _ _ t _ => Some t | NoAcct => None end.

Lemma acct_of_ext_apply2 m i m' r : wf_db m -> apply2 m i = Ret (m', r) ->
  acct_step (acct_of (key2 i) m) i = (acct_of (key2 i) m', r) /\
  forall k, k <> key2 i -> acct_of k m' = acct_of k m.
Proof.
  intros WF H; destruct (apply2_refines m i WF) as (m1 & r1 & E & W & A & O).
  assert (m1 = m' /\ r1 = r) as [-> ->] by (split; congruence). auto.
Qed.

(* abstraction is injective on well-formed rows *)
Lemma acct_of_row_inj r1 r2 : wf_row r1 -> wf_row r2 -> acct_of_row r1 = acct_of_row r2 -> r1 = r2.
Proof.
  intros W1 W2 E. destruct (wf_row_data _ W1) as (L1 & D1 & F1 & P1).
  destruct (wf_row_data _ W2) as (L2 & D2 & F2 & P2).
  unfold acct_of_row in E. injection E as Ed Ep Et Es.
  assert (ES : N.to_nat (r_dsize r1) = N.to_nat (r_dsize r2)) by (rewrite <- F1, <- F2, Ed; reflexivity).
  assert (r_dsize r1 = r_dsize r2) by lia.
  assert (r_data r1 = r_data r2) by (rewrite P1, P2, Ed, ES; reflexivity).
  assert (r_state r1 = r_state r2).
  { destruct W1 as ([E1 | E1] & _), W2 as ([E2 | E2] & _); rewrite E1, E2 in *; auto; discriminate. }
  destruct r1, r2; cbn in *; congruence.
Qed.

Lemma acct_of_inj m1 m2 : wf_db m1 -> wf_db m2 -> (forall k, acct_of k m1 = acct_of k m2) -> m1 = m2.
Proof.
  intros [S1 W1] [S2 W2] H. apply smap_ext; auto. intros k; specialize (H k); unfold acct_of in H.
  destruct (lookup k m1) as [r1|] eqn:E1, (lookup k m2) as [r2|] eqn:E2; auto; try discriminate.
  f_equal; apply acct_of_row_inj; [apply (W1 _ _ E1)|apply (W2 _ _ E2)|exact H].
Qed.

Lemma right_pin_free m v id guess d k m' :
  wf_db m -> apply2 m (In2 v (Log2 id (Restore guess))) = Ret (m', Some (RspRestore RS_OK d k)) ->
  m' = m.
Proof.
  intros WF H. pose proof (apply2_wf _ _ _ _ WF H) as WF'.
  apply acct_of_ext_apply2 in H as [A O]; [|exact WF]. change (key2 _) with id in A, O.
  apply acct_of_inj; auto. intros k0. destruct (beq_spec k0 id) as [->|Hne]; [|now apply O].
  revert A; unfold acct_step; cbn [i_log i_vok l_req].
  destruct (legal _); [|discriminate]. destruct (acct_of id m) as [|d0 p0 k1 [|]]; try discriminate.
  destruct v; cbn [negb]; [|discriminate]. destruct (beq guess p0); [congruence|].
  destruct (k1 =? 1); discriminate.
Qed.

Lemma tries_query_free m v id m' r :
  wf_db m -> apply2 m (In2 v (Log2 id Tries)) = Ret (m', r) -> m' = m.
Proof.
  unfold apply2, run2; cbn [i_log i_vok l_req l_id]; intros _; destruct (validate2 _); try congruence.
  unfold tries2; destruct (lookup id m); congruence.
Qed.

Lemma tries_step m i m' r id : wf_db m -> apply2 m i = Ret (m', r) ->
  is_backup id i = false ->
  match tries_of m id, tries_of m' id with
  | Some t, Some t' => t' = t \/
      (t' = t - 1 /\ 2 <= t /\ exists g, l_req (i_log i) = Restore g /\
                     r = Some (RspRestore RS_PIN_MISMATCH [] t'))
  | Some t, None => is_delete id i = true \/ (t = 1 /\ exists g, l_req (i_log i) = Restore g)
  | None, o => o = None
  end.
Proof.
  intros WF H Hb. pose proof (acct_of_ext_apply2 _ _ _ _ WF H) as [A O].
  unfold tries_of. destruct (beq_spec id (key2 i)) as [->|Hne].
  2:{ rewrite (O id Hne). destruct (acct_of id m); auto. }
  assert (F : for_id (key2 i) i = true) by apply beq_refl.
  assert (HK : forall d p k e, acct_of (key2 i) m = Acct d p k e -> 1 <= k).
  { unfold acct_of; intros d p k e. destruct (lookup (key2 i) m) as [row|] eqn:EL; [|discriminate].
    destruct WF as [_ W]; destruct (W _ _ EL) as [(_ & Ht & _) _].
    unfold acct_of_row; intros E; injection E as _ _ <- _; lia. }
  revert A Hb; unfold acct_step, is_backup, is_delete; rewrite F.
  destruct (legal (i_log i)) eqn:EL; cbn [andb];
    [|intros A _; injection A as <- <-; destruct (acct_of (key2 i) m); auto].
  destruct (l_req (i_log i)) eqn:ER; intros A Hb; try discriminate.
  - destruct (acct_of (key2 i) m) as [|d p k e] eqn:EA; [injection A as <- <-; auto|].
    specialize (HK _ _ _ _ eq_refl).
    destruct e; [|injection A as <- <-; auto].
    destruct (i_vok i); cbn [negb] in A; [|injection A as <- <-; auto].
    destruct (beq pin p); [injection A as <- <-; auto|].
    destruct (N.eqb_spec k 1); injection A as <- <-; eauto.
    right; repeat split; try lia. eexists; split; reflexivity.
  - destruct (acct_of (key2 i) m) as [|d p k e] eqn:EA; [injection A as <- <-; auto|].
    destruct (i_vok i && is_prefix d data)%bool; injection A as <- <-; auto.
  - injection A as <- <-. destruct (acct_of (key2 i) m); auto.
  - destruct (acct_of (key2 i) m) as [|d p k e] eqn:EA; injection A as <- <-; auto.
  - unfold legal in EL; rewrite ER, andb_false_r in EL; discriminate.
Qed.

(* ---- C04 ---- *)
Lemma unexposed_missing h0 h1 id data pin t vb guess v m rs :
  legal (Log2 id (Backup data pin t)) = true ->
  legal (Log2 id (Restore guess)) = true ->
  none_of (is_backup id) h1 -> none_of (good_expose id data) h1 ->
  exec2 [] (h0 ++ In2 vb (Log2 id (Backup data pin t)) :: h1 ++ [In2 v (Log2 id (Restore guess))])
    = Ret (m, rs) ->
  last_answer rs = Some (RspRestore RS_MISSING [] 0) /\
  (none_of (is_delete id) h1 -> acct_of id m = Acct data pin t false).
Proof.
  intros Lb Lr Hb He H. set (b := In2 vb _) in *. set (i := In2 v _) in *.
  replace (h0 ++ b :: h1 ++ [i]) with ((h0 ++ b :: h1) ++ [i]) in H
    by (rewrite <- app_assoc; reflexivity).
  apply exec2_last in H as [H Hm]; [|apply wf_nil]. change (key2 i) with id in H, Hm.
  rewrite filter_app, fst_arun_app in H, Hm.
  assert (F : for_id id b = true) by (unfold for_id; cbn; apply beq_refl).
  cbn [filter] in H, Hm; rewrite F, fst_arun_cons in H, Hm.
  assert (E0 : forall a0, fst (acct_step a0 b) = Acct data pin t false)
    by (intros; unfold acct_step; subst b; cbn [i_log i_vok l_req]; now rewrite Lb).
  rewrite E0 in H, Hm. clear E0.
  assert (G : forall h a, (a = NoAcct \/ a = Acct data pin t false) ->
     (forall i, In i h -> for_id id i = true) -> none_of (is_backup id) h -> none_of (good_expose id data) h ->
     fst (arun2 a h) = NoAcct \/ fst (arun2 a h) = Acct data pin t false).
  { clear; induction h as [|i h IH]; intros a Ha Hf Hb He; [exact Ha|].
    apply none_of_cons in Hb as [Hb Hb']; apply none_of_cons in He as [He He'].
    rewrite fst_arun_cons. apply IH; auto.
    - unfold is_backup, good_expose in *; rewrite (Hf i (or_introl eq_refl)) in *; unfold acct_step.
      destruct (legal (i_log i)); [|exact Ha]. cbn [andb] in *.
      destruct (l_req (i_log i)); try discriminate; destruct Ha as [-> | ->]; auto.
      rewrite He; auto.
    - intros; apply Hf; cbn; auto. }
  destruct (G (filter (for_id id) h1) (Acct data pin t false) (or_intror eq_refl)
     ltac:(intros; eapply filter_for_all; eauto) (none_of_filter _ _ _ Hb) (none_of_filter _ _ _ He)) as [E|E].
  - rewrite E in H. split.
    + unfold last_answer; rewrite H; unfold acct_step; subst i; cbn [i_log i_vok l_req]; now rewrite Lr.
    + intros Hd. rewrite (arun_unexposed id) in E; [discriminate|..]; try (now apply none_of_filter).
      intros; eapply filter_for_all; eauto.
  - rewrite E in H, Hm. split.
    + unfold last_answer; rewrite H; unfold acct_step; subst i; cbn [i_log i_vok l_req]; now rewrite Lr.
    + intros _. rewrite Hm. unfold acct_step; subst i; cbn [i_log i_vok l_req]; now rewrite Lr.
Qed.

Lemma expose_ok_data h id x v m rs :
  exec2 [] (h ++ [In2 v (Log2 id (Expose x))]) = Ret (m, rs) ->
  last_answer rs = Some (RspExpose true) ->
  exists h0 vb d p t h1, h = h0 ++ In2 vb (Log2 id (Backup d p t)) :: h1 /\
    none_of (is_backup id) h1 /\ none_of (is_delete id) h1 /\ is_prefix d x = true.
Proof.
  intros H Hl. apply exec2_last in H as [H _]; [|apply wf_nil].
  unfold last_answer in Hl; rewrite Hl in H; clear Hl. change (key2 _) with id in H.
  change (acct_of id []) with NoAcct in H.
  destruct (fst (arun2 NoAcct (filter (for_id id) h))) as [|d0 p0 k0 e0] eqn:EA;
  unfold acct_step in H; cbn [i_log i_vok l_req] in H; (destruct (legal _); [|discriminate]); [discriminate|].
  destruct (v && is_prefix d0 x)%bool eqn:EP; [|discriminate].
  apply andb_true_iff in EP as [_ EP].
  destruct (arun_history id _ _ _ _ _ ltac:(intros; eapply filter_for_all; eauto) EA)
    as (ha & vb & t & hb & Eh & HL & Hnb & Hnd & _).
  destruct (filter_split _ _ _ _ _ Eh) as (h0 & h1 & Eh1 & F1 & F2). subst h hb.
  exists h0, vb, d0, p0, t, h1. repeat split; auto.
  - eapply none_of_unfilter; [apply is_backup_for|eauto].
  - eapply none_of_unfilter; [apply is_delete_for|eauto].
Qed.

(* ---- C05 ---- *)
Lemma isolation2 id h m1 rs1 m2 rs2 :
  exec2 [] h = Ret (m1, rs1) -> exec2 [] (filter (for_id id) h) = Ret (m2, rs2) ->
  rs2 = map snd (filter (fun p => for_id id (fst p)) (combine h rs1)) /\
  acct_of id m2 = acct_of id m1.
Proof.
  apply (exec_noninterference apply2 key2 acct_of acct_step wf_db
     ltac:(intros; now apply apply2_refines) h [] id m1 rs1 m2 rs2 wf_nil).
Qed.

(* ---- C06 ---- *)
Lemma deleted_stays h0 h1 id vd i m rs :
  length id = 16%nat -> none_of (is_backup id) h1 ->
  for_id id i = true -> is_backup id i = false ->
  exec2 [] (h0 ++ In2 vd (Log2 id Delete) :: h1 ++ [i]) = Ret (m, rs) ->
  last_answer rs = (if legal (i_log i) then
    match l_req (i_log i) with
    | Restore _ => Some (RspRestore RS_MISSING [] 0)
    | Expose _ => Some (RspExpose false)
    | Tries => Some (RspTries false 0 false)
    | Delete => Some RspDelete
    | _ => None end else None) /\ lookup id m = None.
Proof.
  intros Lid Hb Fi Hbi H. set (b := In2 vd _) in *.
  replace (h0 ++ b :: h1 ++ [i]) with ((h0 ++ b :: h1) ++ [i]) in H
    by (rewrite <- app_assoc; reflexivity).
  apply exec2_last in H as [H Hm]; [|apply wf_nil].
  assert (Ek : key2 i = id) by (now apply beq_eq). rewrite Ek in H, Hm.
  rewrite filter_app, fst_arun_app in H, Hm.
  assert (F : for_id id b = true) by (unfold for_id; cbn; apply beq_refl).
  cbn [filter] in H, Hm; rewrite F, fst_arun_cons in H, Hm.
  assert (E0 : forall a0, fst (acct_step a0 b) = NoAcct).
  { intros; unfold acct_step; subst b; cbn [i_log i_vok l_req]; unfold legal; cbn [l_id l_req].
    rewrite Lid; reflexivity. }
  rewrite E0 in H, Hm.
  assert (G : forall h, (forall i, In i h -> for_id id i = true) -> none_of (is_backup id) h ->
     fst (arun2 NoAcct h) = NoAcct).
  { clear; induction h as [|i h IH]; intros Hf Hb; [reflexivity|].
    apply none_of_cons in Hb as [Hb Hb'].
    rewrite fst_arun_cons.
    replace (fst (acct_step NoAcct i)) with NoAcct; [apply IH; auto; intros; apply Hf; cbn; auto|].
    unfold is_backup in *; rewrite (Hf i (or_introl eq_refl)) in *; unfold acct_step.
    destruct (legal (i_log i)); [|reflexivity].
    destruct (l_req (i_log i)); try discriminate; auto. }
  rewrite G in H, Hm; try (now apply none_of_filter); try (intros; eapply filter_for_all; eauto).
  unfold last_answer; rewrite H.
  unfold acct_of in Hm. unfold is_backup in Hbi; rewrite Fi in Hbi; unfold acct_step in *.
  destruct (legal (i_log i)) eqn:EL; cbn [andb] in *.
  - destruct (l_req (i_log i)) eqn:ER; try discriminate; cbn [fst snd] in *;
    try (split; [reflexivity|]; destruct (lookup id m); [discriminate|reflexivity]).
    unfold legal in EL; rewrite ER, andb_false_r in EL; discriminate.
  - split; [reflexivity|]; destruct (lookup id m); [discriminate|reflexivity].
Qed.
