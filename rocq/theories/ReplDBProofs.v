From Verif Require Import ReplDB ReplProofs TransferProofs DB2Spec DB2Proofs DB2Rep DB3Spec DB3Proofs DB4Spec DB4Proofs DB4Transfer DB5Spec DB5Proofs.

Lemma is_ok_eq e : is_ok e = true -> e = E_OK.
Proof. destruct e; cbn; congruence. Qed.

(* DB2 *)
Lemma row_step2 dst k v : sorted (dst ++ [(k, v)]) -> wf_row v -> length k = 16%nat ->
  exists dst', load_row2 dst (ser_row2 (row_proto2 k v)) = (dst', E_OK, k) /\ dst' = dst ++ [(k, v)] /\ length dst' = S (length dst).
Proof.
  intros S Wv Hk. assert (Sp : sorted dst) by (apply sorted_app in S; tauto).
  assert (HE : exists m' id, load_row2 dst (ser_row2 (row_proto2 k v)) = (m', E_OK, id)).
  { apply load_row2_ok. exists (row_proto2 k v). split; [now apply parse_row_of_db|].
    split; [now apply row_proto_msg_ok|]. rewrite row_proto2_wf by exact Wv; cbn [p_id].
    intros k0 Hl. apply last_key_in in Hl as [v0 Hv0]. apply sorted_app in S as (_ & _ & HA). specialize (HA k0 v0 Hv0). cbn in HA; tauto. }
  destruct HE as (m' & id & HE). exists m'.
  destruct (load_row2_res _ _ _ _ Sp HE) as (p & EP & _ & Eid & _ & Em').
  rewrite parse_row_of_db in EP by auto. injection EP as <-.
  rewrite row_of_row_proto in Em' by auto. rewrite row_proto2_wf in Em', Eid by exact Wv; cbn [p_id] in *.
  subst m' id. split; [exact HE|]. split; [reflexivity|]. rewrite app_length; apply Nat.add_1_r.
Qed.
Lemma run_apply2 s l : validate2 l = E_OK -> drop_resp (run2 s true l) = drop_resp (apply2 s (In2 true l)).
Proof. intros E. unfold apply2. cbn [i_log i_vok]. rewrite E. destruct (run2 s true l) as [[s' r]|]; reflexivity. Qed.
Lemma laws2 parse : parse [] = Some (Log2 [] ReqUnset) -> laws (dbi2 parse) row2 (fun m => m) (fun k r => ser_row2 (row_proto2 k r)) wf_db (fun _ => True).
Proof.
  intros Hp. constructor; cbn [dbi2 db_state db_log db_new db_parse db_key db_valid db_run db_dump db_load].
  - split; [apply wf_nil|reflexivity].
  - intros s [S W]. split; [assumption|]. intros k v H. apply (W k v). now apply in_lookup.
  - auto.
  - intros s l H _ Ev. apply is_ok_eq in Ev. rewrite run_apply2 by assumption. destruct (apply2_refines s (In2 true l) H) as (s' & r & -> & W & _ & O). exists s'. split; [reflexivity|]. split; [assumption|].
    intros k Hk. specialize (O k Hk). unfold acct_of in O. destruct H as [S H], W as [S' H'].
    destruct (lookup k s') as [r1|] eqn:E1, (lookup k s) as [r2|] eqn:E2; auto; try discriminate. f_equal. apply acct_of_row_inj; [apply (H' _ _ E1)|apply (H _ _ E2)|assumption].
  - intros s1 s2 l s1' s2' H1 H2 _ Ev E R1 R2. apply is_ok_eq in Ev. rewrite run_apply2 in R1, R2 by assumption.
    destruct (apply2_refines s1 (In2 true l) H1) as (t1 & r1 & E1 & W1 & A1 & _). destruct (apply2_refines s2 (In2 true l) H2) as (t2 & r2 & E2 & W2 & A2 & _).
    rewrite E1 in R1. rewrite E2 in R2. injection R1 as <-. injection R2 as <-. cbn [i_log] in *.
    assert (HA : acct_of (l_id l) t1 = acct_of (l_id l) t2) by (unfold acct_of in A1 at 1; unfold acct_of in A2 at 1; rewrite E in A1; congruence).
    unfold acct_of in HA. destruct W1 as [_ W1], W2 as [_ W2].
    destruct (lookup (l_id l) t1) as [x1|] eqn:X1, (lookup (l_id l) t2) as [x2|] eqn:X2; auto; try discriminate. f_equal. apply acct_of_row_inj; [apply (W1 _ _ X1)|apply (W2 _ _ X2)|assumption].
  - intros l Ev. apply is_ok_eq in Ev. unfold validate2 in Ev. destruct (Nat.eqb_spec (length (l_id l)) BACKUP_ID_SIZE); [assumption|discriminate].
  - intros l. rewrite Hp. intros X. injection X as <-. reflexivity.
  - reflexivity.
  - intros d s mid Hd Hs S Hin Hne. assert (Wd : forall k v, In (k, v) (d ++ mid) -> wf_row v /\ length k = 16%nat).
    { intros k v Hkv. apply in_app_or in Hkv as [Hkv|Hkv]; [apply Hd, in_lookup; [apply Hd|assumption]|apply Hs, in_lookup; [apply Hs|auto]]. }
    destruct (load_ok (d ++ mid) (fun k r => ser_row2 (row_proto2 k r)) (fun d pre => d = pre) true (@length _) load_row2) with (dst := d) (pre := d) (mid := mid) (post := @nil (bytes * row2)) as (d' & El & ->); auto.
    + intros k v Hkv. apply (Wd k v Hkv).
    + intros dst pre k v post -> Em. assert (Hkv : In (k, v) (d ++ mid)) by (rewrite Em; apply in_or_app; right; now left). destruct (Wd _ _ Hkv).
      apply row_step2; auto. rewrite Em in S. change ((k, v) :: post) with ([(k, v)] ++ post) in S. rewrite app_assoc in S. apply sorted_app in S. tauto.
    + now rewrite app_nil_r.
    + exists (d ++ mid). split; [assumption|]. split; [|reflexivity]. split; [assumption|]. intros k r E. apply lookup_in in E. apply Wd, E.
  - auto.
Qed.

(* DB3 *)
Lemma row_step3 dst k v : sorted (dst ++ [(k, v)]) -> wf_row3 v -> length k = 16%nat ->
  exists dst', load_row3 dst (ser_row3 (row_proto3 k v)) = (dst', E_OK, k) /\ dst' = dst ++ [(k, v)] /\ length dst' = S (length dst).
Proof.
  intros S Wv Hk. assert (Sp : sorted dst) by (apply sorted_app in S; tauto).
  assert (HE : exists m' id, load_row3 dst (ser_row3 (row_proto3 k v)) = (m', E_OK, id)).
  { apply load_row3_ok. exists (row_proto3 k v). split; [now apply parse_row_of_db3|].
    split. { destruct Wv; unfold row_msg_ok3, row_proto3; cbn [p3_id p3_priv p3_tries]; lia. }
    cbn [row_proto3 p3_id].
    intros k0 Hl. apply last_key_in in Hl as [v0 Hv0]. apply sorted_app in S as (_ & _ & HA). specialize (HA k0 v0 Hv0). cbn in HA; tauto. }
  destruct HE as (m' & id & HE). exists m'.
  destruct (load_row3_res _ _ _ _ Sp HE) as (p & EP & _ & Eid & _ & Em').
  rewrite parse_row_of_db3 in EP by auto. injection EP as <-. cbn [row_proto3 p3_id p3_priv p3_tries] in *.
  subst m' id. split; [exact HE|]. split; [destruct v; reflexivity|]. rewrite app_length; apply Nat.add_1_r.
Qed.
Lemma acct_lookup3 k a b : acct_of3 k a = acct_of3 k b -> lookup k a = lookup k b.
Proof. unfold acct_of3. destruct (lookup k a) as [[p t]|], (lookup k b) as [[p' t']|]; cbn; congruence. Qed.
Lemma run_apply3 smul s l : validate3 l = E_OK -> drop_resp (run3 smul s true l) = drop_resp (apply3 smul s (In3 true l)).
Proof. intros E. unfold apply3. cbn [i3_log i3_vok]. rewrite E. destruct (run3 smul s true l) as [[s' r]|]; reflexivity. Qed.
Lemma laws3 smul parse : parse [] = Some (Log3 [] Unset3 []) -> laws (dbi3 smul parse) row3 (fun m => m) (fun k r => ser_row3 (row_proto3 k r)) wf_db3 (fun _ => True).
Proof.
  intros Hp. constructor; cbn [dbi3 db_state db_log db_new db_parse db_key db_valid db_run db_dump db_load].
  - split; [apply wf_nil3|reflexivity].
  - intros s [S W]. split; [assumption|]. intros k v H. apply (W k v). now apply in_lookup.
  - auto.
  - intros s l H _ Ev. apply is_ok_eq in Ev. rewrite run_apply3 by assumption. destruct (apply3_refines smul s (In3 true l) H) as (s' & r & -> & W & _ & O). exists s'. split; [reflexivity|]. split; [assumption|].
    intros k Hk. apply acct_lookup3, O, Hk.
  - intros s1 s2 l s1' s2' H1 H2 _ Ev E R1 R2. apply is_ok_eq in Ev. rewrite run_apply3 in R1, R2 by assumption.
    destruct (apply3_refines smul s1 (In3 true l) H1) as (t1 & r1 & E1 & W1 & A1 & _). destruct (apply3_refines smul s2 (In3 true l) H2) as (t2 & r2 & E2 & W2 & A2 & _).
    rewrite E1 in R1. rewrite E2 in R2. injection R1 as <-. injection R2 as <-. cbn [i3_log] in *. apply acct_lookup3.
    unfold acct_of3 in A1 at 1; unfold acct_of3 in A2 at 1; rewrite E in A1; congruence.
  - intros l Ev. apply is_ok_eq in Ev. unfold validate3 in Ev. destruct (Nat.eqb_spec (length (l3_id l)) ID_SIZE3); [assumption|discriminate].
  - intros l. rewrite Hp. intros X. injection X as <-. reflexivity.
  - reflexivity.
  - intros d s mid Hd Hs S Hin Hne. assert (Wd : forall k v, In (k, v) (d ++ mid) -> wf_row3 v /\ length k = 16%nat).
    { intros k v Hkv. apply in_app_or in Hkv as [Hkv|Hkv]; [apply Hd, in_lookup; [apply Hd|assumption]|apply Hs, in_lookup; [apply Hs|auto]]. }
    destruct (load_ok (d ++ mid) (fun k r => ser_row3 (row_proto3 k r)) (fun d pre => d = pre) false (@length _) load_row3) with (dst := d) (pre := d) (mid := mid) (post := @nil (bytes * row3)) as (d' & El & ->); auto.
    + intros k v Hkv. apply (Wd k v Hkv).
    + intros dst pre k v post -> Em. assert (Hkv : In (k, v) (d ++ mid)) by (rewrite Em; apply in_or_app; right; now left). destruct (Wd _ _ Hkv).
      apply row_step3; auto. rewrite Em in S. change ((k, v) :: post) with ([(k, v)] ++ post) in S. rewrite app_assoc in S. apply sorted_app in S. tauto.
    + now rewrite app_nil_r.
    + exists (d ++ mid). split; [assumption|]. split; [|reflexivity]. split; [assumption|]. intros k r E. apply lookup_in in E. apply Wd, E.
  - auto.
Qed.

(* DB5 *)
Lemma row_step5 dst k v : sorted (dst ++ [(k, v)]) -> length v = 32%nat -> length k = 16%nat ->
  exists dst', load_row5 dst (ser_row5 (PRow5 k v)) = (dst', E_OK, k) /\ dst' = dst ++ [(k, v)] /\ length dst' = S (length dst).
Proof.
  intros S Wv Hk. assert (Sp : sorted dst) by (apply sorted_app in S; tauto).
  assert (HE : exists m' id, load_row5 dst (ser_row5 (PRow5 k v)) = (m', E_OK, id)).
  { apply load_row5_ok. exists (PRow5 k v). split; [now apply parse_row_of_db5|].
    split. { unfold row_msg_ok5; cbn [p5_id p5_data]. unfold bytes in *. rewrite Wv, Hk. reflexivity. }
    cbn [p5_id].
    intros k0 Hl. apply last_key_in in Hl as [v0 Hv0]. apply sorted_app in S as (_ & _ & HA). specialize (HA k0 v0 Hv0). cbn in HA; tauto. }
  destruct HE as (m' & id & HE). exists m'.
  destruct (load_row5_res _ _ _ _ Sp HE) as (p & EP & _ & Eid & _ & Em').
  rewrite parse_row_of_db5 in EP by auto. injection EP as <-. cbn [p5_id p5_data] in *.
  subst m' id. split; [exact HE|]. split; [reflexivity|]. rewrite app_length; apply Nat.add_1_r.
Qed.
Lemma run_apply5 hmac s l : validate5 l = E_OK -> drop_resp (run5 hmac s true l) = drop_resp (apply5 hmac s (In5 true l)).
Proof. intros E. unfold apply5. cbn [i5_log i5_vok]. rewrite E. destruct (run5 hmac s true l) as [[s' r]|]; reflexivity. Qed.
Lemma laws5 hmac parse : parse [] = Some (Log5 [] Unset5) -> laws (dbi5 hmac parse) bytes (fun m => m) (fun k d => ser_row5 (PRow5 k d)) wf_db5 (fun _ => True).
Proof.
  intros Hp. constructor; cbn [dbi5 db_state db_log db_new db_parse db_key db_valid db_run db_dump db_load].
  - split; [apply wf_nil5|reflexivity].
  - intros s [S W]. split; [assumption|]. intros k v H. apply (W k v). now apply in_lookup.
  - auto.
  - intros s l H _ Ev. apply is_ok_eq in Ev. rewrite run_apply5 by assumption. destruct (apply5_refines hmac s (In5 true l) H) as (s' & r & -> & W & _ & O). exists s'. split; [reflexivity|]. split; [assumption|].
    intros k Hk. apply O, Hk.
  - intros s1 s2 l s1' s2' H1 H2 _ Ev E R1 R2. apply is_ok_eq in Ev. rewrite run_apply5 in R1, R2 by assumption.
    destruct (apply5_refines hmac s1 (In5 true l) H1) as (t1 & r1 & E1 & W1 & A1 & _). destruct (apply5_refines hmac s2 (In5 true l) H2) as (t2 & r2 & E2 & W2 & A2 & _).
    rewrite E1 in R1. rewrite E2 in R2. injection R1 as <-. injection R2 as <-. cbn [i5_log] in *. unfold acct_of5 in *. rewrite E in A1. congruence.
  - intros l Ev. apply is_ok_eq in Ev. unfold validate5 in Ev. destruct (Nat.eqb_spec (length (l5_id l)) ID_SIZE5); [assumption|discriminate].
  - intros l. rewrite Hp. intros X. injection X as <-. reflexivity.
  - reflexivity.
  - intros d s mid Hd Hs S Hin Hne. assert (Wd : forall k v, In (k, v) (d ++ mid) -> length v = 32%nat /\ length k = 16%nat).
    { intros k v Hkv. apply in_app_or in Hkv as [Hkv|Hkv]; [apply Hd, in_lookup; [apply Hd|assumption]|apply Hs, in_lookup; [apply Hs|auto]]. }
    destruct (load_ok (d ++ mid) (fun k r => ser_row5 (PRow5 k r)) (fun d pre => d = pre) true (@length _) load_row5) with (dst := d) (pre := d) (mid := mid) (post := @nil (bytes * bytes)) as (d' & El & ->); auto.
    + intros k v Hkv. apply (Wd k v Hkv).
    + intros dst pre k v post -> Em. assert (Hkv : In (k, v) (d ++ mid)) by (rewrite Em; apply in_or_app; right; now left). destruct (Wd _ _ Hkv).
      apply row_step5; auto. rewrite Em in S. change ((k, v) :: post) with ([(k, v)] ++ post) in S. rewrite app_assoc in S. apply sorted_app in S. tauto.
    + now rewrite app_nil_r.
    + exists (d ++ mid). split; [assumption|]. split; [|reflexivity]. split; [assumption|]. intros k r E. apply lookup_in in E. apply Wd, E.
  - auto.
Qed.

(* DB4 *)
Section Four.
Variable c : crypto4.
Lemma row_step4 dst k v : sorted (joined dst ++ [(k, v)]) -> wf_db4 dst -> good_acct c k (Some v) ->
  exists dst', load_row4 c dst (ser_row4 (row_proto4 k v)) = (dst', E_OK, k) /\ dst' = unjoin (joined dst ++ [(k, v)]) /\ length (rows4 dst') = S (length (rows4 dst)).
Proof.
  intros S W Gv. destruct (good_msg c _ _ Gv) as (M1 & M2 & M3).
  assert (Eid : p4_id (row_proto4 k v) = k) by (destruct v; reflexivity).
  assert (HE : exists m' id, load_row4 c dst (ser_row4 (row_proto4 k v)) = (m', E_OK, id)).
  { apply load_row4_ok. exists (row_proto4 k v). split; [now apply parse_good with c|]. split; [exact M1|].
    rewrite Eid. intros k0 Hl. apply last_key_in in Hl as [v0 Hv0]. apply sorted_app in S as (_ & _ & HA).
    assert (Hj : In (k0, (v0, lookup k0 (rots4 dst))) (joined dst)) by (unfold joined; apply in_map_iff; exists (k0, v0); auto).
    specialize (HA _ _ Hj). cbn in HA; tauto. }
  destruct HE as (m' & id & HE). exists m'.
  destruct (load_row4_res _ _ _ _ _ W HE) as (p & EP & _ & Ei & _ & Em').
  rewrite (parse_good c) in EP by auto. injection EP as <-. rewrite Eid, M2, M3 in *. subst id. split; [exact HE|]. split.
  - rewrite Em'. pose proof (unjoin_joined dst W) as HU. rewrite <- HU at 1 2. unfold unjoin; cbn [rows4 rots4]. rewrite map_app, flat_map_app. cbn. destruct v as [r [rr|]]; reflexivity.
  - rewrite Em'. cbn [rows4]. rewrite app_length; apply Nat.add_1_r.
Qed.
Lemma joined_unjoin l : sorted l -> joined (unjoin l) = l.
Proof.
  intros S. destruct (unjoin_sorted l S) as [S1 S2]. apply smap_ext; [now apply joined_sorted|assumption|]. intros k. rewrite lookup_joined, unjoin_lookup by assumption.
  assert (E : lookup k (rows4 (unjoin l)) = match lookup k l with Some (r, _) => Some r | None => None end).
  { clear. unfold unjoin. cbn [rows4]. induction l as [|[k1 [r o]] l IH]; [reflexivity|]. cbn. destruct (beq k k1); auto. }
  rewrite E. destruct (lookup k l) as [[r o]|]; reflexivity.
Qed.
Lemma good_unjoin l : sorted l -> (forall k x, In (k, x) l -> good_acct c k (Some x)) -> good_db c (unjoin l).
Proof.
  intros S G. split; [eapply wf_unjoin; eassumption|]. intros k. unfold account4. rewrite <- lookup_joined, joined_unjoin by assumption.
  destruct (lookup k l) as [x|] eqn:E; [|exact I]. apply G, lookup_in, E.
Qed.
Lemma run_apply4 s l : validate4 c l = E_OK -> drop_resp (run4 c s true l) = drop_resp (apply4 c s (In4 true l)).
Proof. intros E. unfold apply4. cbn [i4_log i4_vok]. rewrite E. destruct (run4 c s true l) as [[s' r]|]; reflexivity. Qed.
Lemma account_joined k m : lookup k (joined m) = account4 k m.
Proof. now rewrite lookup_joined. Qed.
Lemma laws4 parse : add_closed c -> parse [] = Some (Log4 [] Unset4) -> (forall x l, parse x = Some l -> typed4 (In4 true l) = true) ->
  laws (dbi4 c parse) (row4 * option rrow4) joined (fun k x => ser_row4 (row_proto4 k x)) (good_db c) (fun l => typed4 (In4 true l) = true).
Proof.
  intros Hadd Hp Ht. constructor; cbn [dbi4 db_state db_log db_new db_parse db_key db_valid db_run db_dump db_load].
  - split; [|reflexivity]. split; [apply wf_nil4|]. intros k. exact I.
  - intros s G. split; [apply joined_sorted, G|]. intros k [r ro] H. exact (proj1 (joined_good c s k _ G H)).
  - assumption.
  - intros s l G Htl Ev. apply is_ok_eq in Ev. rewrite run_apply4 by assumption. destruct G as [W G]. destruct (apply4_refines c s (In4 true l) W) as (s' & r & -> & W' & A & O). exists s'. split; [reflexivity|].
    cbn [i4_log] in *. split.
    + split; [assumption|]. intros k. destruct (beq_spec k (l4_id l)) as [->|Hk]; [|rewrite (O k Hk); apply G].
      assert (E : account4 (l4_id l) s' = fst (acct_step4 c (account4 (l4_id l) s) (In4 true l))) by (rewrite A; reflexivity). rewrite E.
      apply good_step; auto. unfold for_id4. cbn. apply beq_refl.
    + intros k Hk. rewrite !account_joined. apply O, Hk.
  - intros s1 s2 l s1' s2' H1 H2 _ Ev E R1 R2. apply is_ok_eq in Ev. rewrite run_apply4 in R1, R2 by assumption.
    destruct (apply4_refines c s1 (In4 true l) (proj1 H1)) as (t1 & r1 & E1 & W1 & A1 & _). destruct (apply4_refines c s2 (In4 true l) (proj1 H2)) as (t2 & r2 & E2 & W2 & A2 & _).
    rewrite E1 in R1. rewrite E2 in R2. injection R1 as <-. injection R2 as <-. cbn [i4_log] in *. rewrite !account_joined in *. rewrite E in A1. congruence.
  - intros l Ev. apply is_ok_eq in Ev. unfold validate4 in Ev. destruct (Nat.eqb_spec (length (l4_id l)) ID_SIZE4); [assumption|discriminate].
  - intros l. rewrite Hp. intros X. injection X as <-. reflexivity.
  - intros s start n G. unfold rows_as_protos4, dump_rows. rewrite walk4_eq, walk4_above by apply G. reflexivity.
  - intros d s mid Hd Hs S Hin Hne.
    assert (Gd : forall k x, In (k, x) (joined d ++ mid) -> good_acct c k (Some x)).
    { intros k x Hx. apply in_app_or in Hx as [Hx|Hx]; [exact (joined_good c d k x Hd Hx)|exact (joined_good c s k x Hs (Hin _ Hx))]. }
    destruct (load_ok (joined d ++ mid) (fun k x => ser_row4 (row_proto4 k x)) (fun d pre => d = unjoin pre) false (fun db => length (rows4 db)) (load_row4 c)) with (dst := d) (pre := joined d) (mid := mid) (post := @nil (bytes * (row4 * option rrow4))) as (d' & El & ->); auto.
    + intros k [r ro] Hkv. apply (Gd _ _ Hkv).
    + intros dst pre k v post -> Em. assert (Sp : sorted (pre ++ [(k, v)])).
      { rewrite Em in S. change ((k, v) :: post) with ([(k, v)] ++ post) in S. rewrite app_assoc in S. apply sorted_app in S. tauto. }
      assert (Sp0 : sorted pre) by (apply sorted_app in Sp; tauto).
      assert (Gp : forall k x, In (k, x) pre -> good_acct c k (Some x)) by (intros; apply Gd; rewrite Em; apply in_or_app; auto).
      destruct (row_step4 (unjoin pre) k v) as (dst' & E1 & E2 & E3).
      * rewrite joined_unjoin by assumption. assumption.
      * now apply (good_unjoin pre Sp0).
      * apply Gd. rewrite Em. apply in_or_app. right. now left.
      * rewrite joined_unjoin in E2 by assumption. exists dst'. auto.
    + symmetry. apply unjoin_joined, Hd.
    + now rewrite app_nil_r.
    + exists (unjoin (joined d ++ mid)). split; [assumption|]. split; [now apply good_unjoin|now apply joined_unjoin].
  - intros s s' G G' E. rewrite <- (unjoin_joined s (proj1 G)), <- (unjoin_joined s' (proj1 G')). now rewrite E.
Qed.
End Four.
