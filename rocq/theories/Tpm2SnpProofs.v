(* Proofs about Tpm2Snp.v. *)
From Coq Require Import Strings.String Lia.
From Verif Require Import Tpm2Snp Tpm2Spec Tpm2Proofs SnpSpec SnpProofs Tpm2SnpSpec P_Tpm2.

Lemma bind_ret {A B} (o : outcome A) (k : A -> outcome B) r : bind o k = Ret r <-> exists a, o = Ret a /\ k a = Ret r.
Proof. destruct o as [a|]; cbn [bind]; split. - intros H. now exists a. - intros (b & [= ->] & H). exact H. - discriminate. - intros (b & H & _). discriminate. Qed.

(* --- strings and JSON --- *)
Lemma cstr_text t : text t (cstr t).
Proof.
  induction t as [|b t [IH IN]]; cbn [cstr]; [split; [now left|intros []]|].
  destruct (N.eqb_spec b 0) as [->|B].
  - split; [right; exists t; reflexivity|intros []].
  - split.
    + destruct IH as [IH|[r IH]]; [left; congruence|right; exists r; cbn; congruence].
    + intros [H|H]; [congruence|contradiction].
Qed.
Lemma text_cstr t : forall s, text t s -> cstr t = s.
Proof.
  induction t as [|b t IH]; intros s [H N].
  - destruct H as [<-|[r H]]; [reflexivity|]. destruct s; discriminate.
  - cbn [cstr]. destruct s as [|c s].
    + destruct H as [H|[r H]]; [discriminate|]. injection H as -> _. reflexivity.
    + assert (b = c) as -> by (destruct H as [H|[r H]]; cbn in H; congruence).
      destruct (N.eqb_spec c 0) as [->|B]; [exfalso; apply N; now left|]. f_equal. apply IH. split.
      * destruct H as [H|[r H]]; [left|right; exists r]; cbn in H; congruence.
      * intros I. apply N. now right.
Qed.
Lemma find_first m name v : find_member (ascii name) m = Some v <-> has_member m name v.
Proof.
  unfold find_member, has_member. split.
  - destruct (find _ m) as [[k v']|] eqn:F; [|discriminate]. intros [= ->].
    induction m as [|[k0 v0] m IH]; [discriminate|]. cbn [find fst] in F. destruct (beq_spec k0 (ascii name)) as [->|N].
    + injection F as <- <-. exists [], m. split; [reflexivity|intros x []].
    + destruct (IH F) as (m1 & m2 & -> & H). exists ((k0, v0) :: m1), m2. split; [reflexivity|].
      intros x [<-|I]; [assumption|now apply H].
  - intros (m1 & m2 & -> & H). induction m1 as [|[k0 v0] m1 IH]; cbn [app find fst].
    + now rewrite beq_refl.
    + destruct (beq_spec k0 (ascii name)) as [E|N]; [exfalso; exact (H _ (or_introl eq_refl) E)|]. apply IH. intros x I. apply H. now right.
Qed.
Lemma member_is_spec name want m : ~ In 0 (ascii want) ->
  exists b, member_is (ascii name) (ascii want) (JObj m) = Ret b /\ (b = true <-> is_text m name (ascii want)).
Proof.
  intros Z. unfold member_is. cbn [member bind]. destruct (find_member (ascii name) m) as [[| | |s| |]|] eqn:F.
  4: { eexists. split; [reflexivity|]. rewrite beq_eq. split.
    - intros E. exists s. split; [now apply find_first|]. rewrite <- E. apply cstr_text.
    - intros (t & H & T). apply find_first in H. assert (t = s) as -> by congruence. now apply text_cstr. }
  all: exists false; split; [reflexivity|]; split; [discriminate|]; intros (t & H & T); apply find_first in H; congruence.
Qed.
Lemma no_zero_kid : ~ In 0 (ascii "HCLAkPub"). Proof. cbn. intuition discriminate. Qed.
Lemma no_zero_kty : ~ In 0 (ascii "RSA"). Proof. cbn. intuition discriminate. Qed.

(* one element of the array *)
Definition is_ak_key (k : json) : outcome bool :=
  let* a := member_is (ascii "kid") (ascii "HCLAkPub") k in
  if a then member_is (ascii "kty") (ascii "RSA") k else Ret false.
Lemma find_key_cons k l : find_key (k :: l) = let* b := is_ak_key k in if b then Ret (Some k) else find_key l.
Proof. cbn [find_key]. unfold is_ak_key. destruct (member_is _ _ k) as [[|]|]; reflexivity. Qed.
Lemma is_ak_key_obj m : exists b, is_ak_key (JObj m) = Ret b /\ (b = true <-> ak_jwk m).
Proof.
  unfold is_ak_key, ak_jwk. destruct (member_is_spec "kid" "HCLAkPub" m no_zero_kid) as (b & -> & Hb). cbn [bind]. destruct b.
  - destruct (member_is_spec "kty" "RSA" m no_zero_kty) as (b' & -> & Hb'). exists b'. split; [reflexivity|]. tauto.
  - exists false. split; [reflexivity|]. split; [discriminate|]. intros [H _]. apply Hb in H. discriminate.
Qed.
Lemma is_ak_key_ret k b : is_ak_key k = Ret b -> exists m, k = JObj m.
Proof. destruct k; try discriminate. eauto. Qed.

Lemma find_key_some l k : find_key l = Ret (Some k) <->
  exists pre m post, l = pre ++ JObj m :: post /\ k = JObj m /\ Forall (fun j => exists m, j = JObj m /\ ~ ak_jwk m) pre /\ ak_jwk m.
Proof.
  induction l as [|j l IH]; [split; [discriminate|intros (pre & m & post & H & _); destruct pre; discriminate]|].
  rewrite find_key_cons, bind_ret. split.
  - intros (b & E & H). destruct (is_ak_key_ret _ _ E) as [m ->]. destruct (is_ak_key_obj m) as (b' & E' & Hb). assert (b' = b) as -> by congruence.
    destruct b.
    + injection H as <-. exists [], m, l. repeat split; [constructor|now apply Hb|now apply Hb].
    + apply IH in H as (pre & m' & post & -> & -> & F & A). exists (JObj m :: pre), m', post. repeat split; [|apply A|apply A].
      constructor; [|assumption]. exists m. split; [reflexivity|]. intros A'. apply Hb in A'. discriminate.
  - intros (pre & m & post & E & -> & F & A). destruct pre as [|p pre].
    + injection E as -> ->. destruct (is_ak_key_obj m) as (b & E & Hb). exists b. split; [assumption|]. apply Hb in A. now rewrite A.
    + injection E as -> ->. inversion F as [|? ? (m0 & -> & N) F']; subst. destruct (is_ak_key_obj m0) as (b & E & Hb). exists b. split; [assumption|].
      destruct b; [exfalso; now apply N, Hb|]. apply IH. exists pre, m, post. auto.
Qed.

Lemma member_ret name m v : member (ascii name) (JObj m) = Ret (Some v) <-> has_member m name v.
Proof. cbn [member]. rewrite <- find_first. split; congruence. Qed.
Lemma member_obj name j o : member name j = Ret o -> exists m, j = JObj m.
Proof. destruct j; try discriminate. eauto. Qed.

(* what runtime_key accepts *)
Definition jwk_strings (w : world) (data e n : bytes) : Prop :=
  exists txt doc pre k post, text data txt /\ w_json w txt = Some (JObj doc) /\ has_member doc "keys" (JArr (pre ++ JObj k :: post)) /\
    Forall (fun j => exists m, j = JObj m /\ ~ ak_jwk m) pre /\ ak_jwk k /\ is_text k "e" e /\ is_text k "n" n.
Lemma runtime_key_spec w data e n : runtime_key w data = Ret (Ok (e, n)) <-> jwk_strings w data e n.
Proof.
  unfold runtime_key. split.
  - intros H. destruct (w_json w (cstr data)) as [doc|] eqn:J; [|discriminate].
    apply bind_ret in H as (ks & K & H). destruct (member_obj _ _ _ K) as [m ->].
    destruct ks as [[| | | |l|]|]; try discriminate. apply member_ret in K.
    destruct (length l <? 1)%nat; [discriminate|]. apply bind_ret in H as (k & F & H). destruct k as [k|]; [|discriminate].
    apply find_key_some in F as (pre & mk & post & -> & -> & F & A).
    apply bind_ret in H as (oe & E & H). destruct oe as [[| | |te| |]|]; try discriminate. apply member_ret in E.
    apply bind_ret in H as (on & N & H). destruct on as [[| | |tn| |]|]; try discriminate. apply member_ret in N.
    injection H as <- <-. exists (cstr data), m, pre, mk, post. split; [apply cstr_text|]. split; [assumption|]. split; [assumption|].
    split; [assumption|]. split; [assumption|]. split; [exists te|exists tn]; (split; [assumption|apply cstr_text]).
  - intros (txt & doc & pre & k & post & T & J & K & F & A & (te & Me & Te) & (tn & Mn & Tn)).
    apply text_cstr in T as ->. rewrite J. apply member_ret in K. rewrite K. cbn [bind].
    replace (length (pre ++ JObj k :: post) <? 1)%nat with false.
    2: { symmetry. apply Nat.ltb_ge. rewrite app_length. cbn [length]. lia. }
    rewrite (proj2 (find_key_some _ (JObj k))) by (exists pre, k, post; auto). cbn [bind].
    apply member_ret in Me, Mn. rewrite Me. cbn [bind]. rewrite Mn. cbn [bind]. now rewrite (text_cstr _ _ Te), (text_cstr _ _ Tn).
Qed.

(* --- the SNP report --- *)
Lemma field_slice s d n : field s d n = slice s (N.to_nat d) (N.to_nat n).
Proof. reflexivity. Qed.
Lemma slice_first a b s d n : (d + n <= b)%nat -> a = slice s 0 b -> slice a d n = slice s d n.
Proof.
  intros H ->. unfold slice. cbn [skipn]. rewrite skipn_firstn_comm, firstn_firstn. f_equal. lia.
Qed.
Definition report_of (s : bytes) : bytes := slice s 0 1184.
Lemma report_slice s d n : (d + n <= 1184)%nat -> slice (report_of s) d n = slice s d n.
Proof. intros H. now apply (slice_first _ 1184). Qed.
Lemma unverified_spec s : report_unverified s = if blen s <? 1184 then Err Sev_EvidenceTooSmall else Ok (report_of s).
Proof. reflexivity. Qed.

Lemma report_verified_spec w buf vd ad now r : report_verified w buf vd ad now = Ret (Ok r) <->
  r = report_of buf /\ exists vcek ask key, is_cert w vd vcek /\ is_cert w ad ask /\ w_chain w (w_amd_roots w) [ask] vcek now = true /\
    w_pubkey w vcek = Some (PEc key) /\ snp_signed w key buf.
Proof.
  unfold report_verified, is_cert, snp_signed. rewrite unverified_spec. split.
  - destruct (blen buf <? 1184) eqn:L; [discriminate|]. apply N.ltb_ge in L.
    destruct (w_d2i w vd) as [[vcek nv]|] eqn:V; [|discriminate]. destruct (w_d2i w ad) as [[ask na]|] eqn:A; [|discriminate].
    destruct (w_pubkey w vcek) as [k|] eqn:K; [|discriminate]. destruct (w_chain w (w_amd_roots w) [ask] vcek now) eqn:C; [|discriminate]. cbn [negb].
    destruct k as [| key |]; try discriminate.
    destruct (w_ecdsa w key _ _ _) eqn:S; [|discriminate]. intros [= <-]. split; [reflexivity|].
    exists vcek, ask, key. split; [eauto|]. split; [eauto|]. split; [assumption|]. split; [assumption|]. split; [assumption|].
    unfold rep_signed, rep_sig_r, rep_sig_s in S. rewrite !field_slice, !report_slice in S by (vm_compute; lia). exact S.
  - intros (-> & vcek & ask & key & (nv & V) & (na & A) & C & K & L & S).
    rewrite (proj2 (N.ltb_ge _ _) L), V, A, K, C. cbn [negb].
    unfold rep_signed, rep_sig_r, rep_sig_s. rewrite !field_slice, !report_slice by (vm_compute; lia).
    match goal with |- context [w_ecdsa w key ?a ?b ?c] => change (w_ecdsa w key a b c) with (w_ecdsa w key (w_sha384 w (slice buf 0 672)) (le_num (slice buf 672 48)) (le_num (slice buf 744 48))) end.
    now rewrite S.
Qed.

(* --- the attestation key --- *)
Lemma ok_inj {E A} (a b : A) : Ret (@Ok E A a) = Ret (Ok b) -> a = b.
Proof. congruence. Qed.
Lemma akcert_spec w e n now roots mins : verify_akcert w e n now roots = Ret (Ok mins) <->
  (exists E N, key_vouched w e n now roots E N) /\ mins = combine_values (sev_minimums (report_of (te_snp_report e))) [].
Proof.
  unfold verify_akcert, key_vouched. split.
  - destruct (w_d2i w (te_akcert e)) as [[ak nk]|] eqn:A; [|discriminate]. destruct (w_d2i w (tn_intermediate n)) as [[im ni]|] eqn:I; [|discriminate].
    destruct (w_chain w roots [im] ak now) eqn:C; [|discriminate]. cbn [negb]. intros H.
    apply bind_ret in H as (r & R & H). destruct r as [r|]; [|discriminate]. apply report_verified_spec in R as (-> & vcek & ask & key & R).
    destruct (beq_spec (w_sha256 w (te_runtime_data e)) (firstn 32 (rep_report_data (report_of (te_snp_report e))))) as [D|]; [|discriminate].
    cbn [negb] in H. apply bind_ret in H as (k & K & H). destruct k as [[rte rtn]|]; [|discriminate]. apply runtime_key_spec in K.
    apply bind_ret in H as (de & De & H). destruct de as [de| |]; try discriminate.
    apply bind_ret in H as (dn & Dn & H). destruct dn as [dn| |]; try discriminate.
    destruct (w_pubkey w ak) as [[ake akn| |]|] eqn:P; try discriminate.
    destruct (beq_spec de ake) as [->|]; [|discriminate]. destruct (beq_spec dn akn) as [->|]; [|discriminate]. apply ok_inj in H as <-.
    split; [|reflexivity]. exists ake, akn, ak, im, vcek, ask, key. split; [now exists nk|]. split; [now exists ni|]. split; [assumption|].
    split; [assumption|]. destruct R as (R1 & R2 & R3 & R4 & R5). repeat (split; [assumption|]). split.
    + rewrite D. unfold snp_data, rep_report_data. rewrite field_slice, report_slice by (vm_compute; lia).
      unfold slice. rewrite firstn_firstn. reflexivity.
    + destruct K as (txt & doc & pre & kk & post & K1 & K2 & K3 & K4 & K5 & K6 & K7).
      exists txt, doc, pre, kk, post, rte, rtn. repeat (split; [assumption|]). assumption.
  - intros [(E & N & ak & im & vcek & ask & key & (nk & A) & (ni & I) & C & P & R1 & R2 & R3 & R4 & R5 & D & K) ->].
    rewrite A, I, C. cbn [negb]. rewrite (proj2 (report_verified_spec w (te_snp_report e) (tn_vcek n) (tn_ask n) now _)
      (conj eq_refl (ex_intro _ vcek (ex_intro _ ask (ex_intro _ key (conj R1 (conj R2 (conj R3 (conj R4 R5))))))))). cbn [bind].
    assert (D' : firstn 32 (rep_report_data (report_of (te_snp_report e))) = w_sha256 w (te_runtime_data e)).
    { rewrite <- D. unfold snp_data, rep_report_data. rewrite field_slice, report_slice by (vm_compute; lia). unfold slice. now rewrite firstn_firstn. }
    rewrite D', beq_refl. cbn [negb].
    destruct K as (txt & doc & pre & kk & post & rte & rtn & K1 & K2 & K3 & K4 & K5 & K6 & De & K7 & Dn).
    rewrite (proj2 (runtime_key_spec w (te_runtime_data e) rte rtn)).
    2: { exists txt, doc, pre, kk, post. auto 10. }
    cbn [bind]. rewrite De. cbn [bind]. rewrite Dn. cbn [bind]. rewrite P, !beq_refl. reflexivity.
Qed.

(* --- the quote --- *)
Lemma tpm2_spec w e ak nk E N nn pcrs : evidence_ok e -> w_d2i w (te_akcert e) = Some (ak, nk) -> w_pubkey w ak = Some (PRsa E N) ->
  (verify_tpm2 w e = Ret (Ok (nn, pcrs)) <-> quoted w e E N pcrs nn).
Proof.
  intros (Bm & Bs & Bp & _) A P. unfold verify_tpm2, quoted.
  pose proof (C61_signature_read_exactly _ Bs) as Sg. pose proof (C61_quote_read_exactly _ Bm) as Qt. pose proof (C61_pcrs_read_exactly _ Bp) as Ps. split.
  - destruct (parse_signature (te_sig e)) as [[sig|]|]; try discriminate. destruct Sg as [Ls Es]. cbn [bind].
    destruct (parse_report (te_msg e)) as [[msg|]|] eqn:PR; try discriminate. destruct Qt as (q & Qo & Qb & Td & Kh & Nn & Dg & _). cbn [bind].
    destruct (pcrs_from_string (te_pcrs e)) as [[ps|]|]; try discriminate. destruct Ps as [Po Pc]. cbn [bind]. rewrite A, P, Td.
    destruct (w_rsa w E N (w_sha256 w (te_msg e)) sig) eqn:R; [|discriminate]. cbn [negb].
    unfold verify_pcrs. rewrite Dg, Nn. cbn [bind]. destruct (beq_spec (w_sha256 w (concat ps)) (q_digest q)) as [D|]; [|discriminate]. cbn [negb].
    intros [= <- <-]. exists q, sig. repeat (split; [assumption|]). split; [|reflexivity]. now rewrite Pc.
  - intros (q & sig & Qo & Qb & Ls & Es & R & Po & Pc & D & <-).
    assert (PS : parse_signature (te_sig e) = Ret (Some sig)).
    { destruct (parse_signature (te_sig e)) as [[sig'|]|]; [|exfalso; now apply (Sg sig)|destruct Sg]. destruct Sg as [_ Es']. rewrite Es in Es'.
      unfold signature_bytes in Es'. apply app_inv_head in Es'. apply app_inv_head in Es'. apply app_inv_head in Es'. now subst. }
    rewrite PS. cbn [bind].
    destruct (report_quote q Qo) as (r & PR & Td & _ & Nn & Dg & _). rewrite Qb, PR. cbn [bind].
    assert (PP : pcrs_from_string (te_pcrs e) = Ret (Some pcrs)).
    { destruct (pcrs_from_string (te_pcrs e)) as [[ps|]|]; [|exfalso; now apply (Ps pcrs)|destruct Ps]. destruct Ps as [[L F] Pc']. rewrite Pc in Pc'.
      do 2 f_equal. destruct Po as [L' F']. apply (concat_inj ps pcrs 32); try assumption; congruence. }
    rewrite PP. cbn [bind]. rewrite Qb in R. rewrite A, P, Td, R. cbn [negb]. unfold verify_pcrs. rewrite Dg, Nn. cbn [bind].
    rewrite <- Pc, <- D, beq_refl. reflexivity.
Qed.
Lemma remote_pcrs_spec local remote : check_remote_pcrs local remote = true <-> same_software local remote.
Proof.
  unfold check_remote_pcrs, same_software. fold CHECKED_PCRS.
  assert (G : forall l b, fold_left (fun ok i => (ok && beq (nth i local []) (nth i remote []))%bool) l b = true <->
    b = true /\ forall i, In i l -> nth i remote [] = nth i local []).
  { induction l as [|i l IH]; intros b; cbn [fold_left]; [split; [intros ->; split; [reflexivity|intros i []]|tauto]|].
    rewrite IH, andb_true_iff, beq_eq. split.
    - intros [[-> H1] H2]. split; [reflexivity|]. intros j [<-|Hj]; [congruence|now apply H2].
    - intros [-> H]. split; [split; [reflexivity|symmetry; apply H; now left]|]. intros j Hj. apply H. now right. }
  rewrite G. tauto.
Qed.

(* --- everything --- *)
Lemma complete_spec w e n now roots local out : evidence_ok e ->
  (complete_verification w e n now roots local = Ret (Ok out) <->
   exists d, good_evidence w e n now roots local d /\
     out = AData (ad_key d) (combine_values (combine_values (sev_minimums (report_of (te_snp_report e))) []) (ad_values d))).
Proof.
  intros V. unfold complete_verification, good_evidence. split.
  - intros H. apply bind_ret in H as (m & M & H). destruct m as [m|]; [|discriminate]. apply akcert_spec in M as [(E & N & K) ->].
    apply bind_ret in H as (q & Q & H). destruct q as [[nn pcrs]|]; [|discriminate].
    destruct K as (ak & im & vcek & ask & key & (nk & A) & (ni & I) & C & P & R).
    apply (tpm2_spec w e ak nk E N nn pcrs V A P) in Q.
    destruct (check_remote_pcrs local pcrs) eqn:S; [|discriminate]. apply remote_pcrs_spec in S. cbn [negb] in H.
    destruct (beq_spec (w_sha256 w (te_data e)) nn) as [D|]; [|discriminate]. cbn [negb] in H.
    destruct (w_data w (te_data e)) as [d|] eqn:Wd; [|discriminate]. apply ok_inj in H as <-. exists d. split; [|reflexivity].
    exists E, N, pcrs, nn. split. { exists ak, im, vcek, ask, key. split; [now exists nk|]. split; [now exists ni|]. tauto. } auto.
  - intros (d & (E & N & pcrs & nn & K & Q & S & -> & Wd) & ->).
    rewrite (proj2 (akcert_spec w e n now roots _)) by (split; [now exists E, N|reflexivity]). cbn [bind].
    destruct K as (ak & im & vcek & ask & key & (nk & A) & (ni & I) & C & P & R).
    apply (tpm2_spec w e ak nk E N _ pcrs V A P) in Q. rewrite Q. cbn [bind]. apply remote_pcrs_spec in S. rewrite S. cbn [negb].
    rewrite beq_refl. cbn [negb]. now rewrite Wd.
Qed.

(* --- minimum values --- *)
Lemma sev_minimums_sorted r : sorted (sev_minimums r).
Proof. unfold sev_minimums. repeat apply sorted_put. exact I. Qed.
Lemma sev_minimums_lookup r name off : In (name, off) snp_versions -> lookup (ascii name) (sev_minimums r) = Some (slice r off 1).
Proof.
  intros H. cbn [snp_versions In] in H. unfold sev_minimums, rep_platform, rep_tcb.
  repeat (destruct H as [H|H]; [injection H as <- <-; reflexivity|]). destruct H.
Qed.
Lemma sev_minimums_other r k : (forall name off, In (name, off) snp_versions -> k <> ascii name) -> lookup k (sev_minimums r) = None.
Proof.
  intros H. unfold sev_minimums. repeat rewrite lookup_put_other by (eapply H; cbn; eauto 10). reflexivity.
Qed.
Lemma mins_lookup r k : lookup k (combine_values (sev_minimums r) []) = lookup k (sev_minimums r).
Proof. rewrite combine_lookup by apply sev_minimums_sorted. cbn [lookup]. now destruct (lookup k (sev_minimums r)). Qed.
Lemma combine_sorted from : forall into, sorted into -> sorted (combine_values from into).
Proof.
  induction from as [|[k v] from IH]; intros into S; cbn [combine_values]; [assumption|]. apply IH.
  destruct (lookup k into); [destruct (blt v _)|]; try apply sorted_put; assumption.
Qed.
Lemma slice_one s off : (off < length s)%nat -> exists b, nth_error s off = Some b /\ slice s off 1 = [b].
Proof.
  revert off. induction s as [|a s IH]; intros off H; [cbn in H; lia|]. destruct off as [|off].
  - exists a. now split.
  - cbn in H. destruct (IH off ltac:(lia)) as (b & E & F). exists b. split; [exact E|exact F].
Qed.
Lemma versions_in name off : In (name, off) snp_versions -> (off + 1 <= 1184)%nat.
Proof. intros H. cbn [snp_versions In] in H. repeat (destruct H as [H|H]; [injection H as <- <-; apply Nat.leb_le; reflexivity|]). destruct H. Qed.

(* --- crashes --- *)
Lemma in_cstr c t : In c (cstr t) -> In c t.
Proof. induction t as [|b t IH]; cbn [cstr]; [intros []|]. destruct (b =? 0); [intros []|]. intros [<-|H]; [now left|right; now apply IH]. Qed.
Lemma find_key_total l : (forall j, In j l -> exists k, j = JObj k) -> exists o, find_key l = Ret o /\ (forall k, o = Some k -> In k l).
Proof.
  induction l as [|j l IH]; intros H; [exists None; split; [reflexivity|discriminate]|].
  rewrite find_key_cons. destruct (H j (or_introl eq_refl)) as [m ->]. destruct (is_ak_key_obj m) as (b & -> & _). cbn [bind]. destruct b.
  - exists (Some (JObj m)). split; [reflexivity|]. intros k [= <-]. now left.
  - destruct (IH (fun j I => H j (or_intror I))) as (o & -> & O). exists o. split; [reflexivity|]. intros k E. right. now apply O.
Qed.
Lemma runtime_key_total w data : all_objects w data ->
  exists r, runtime_key w data = Ret r /\ forall e n, r = Ok (e, n) -> (forall c, In c e -> c < 128) /\ (forall c, In c n -> c < 128).
Proof.
  intros H. unfold runtime_key. specialize (H (cstr data)). destruct (w_json w (cstr data)) as [doc|]; [|eexists; split; [reflexivity|discriminate]].
  destruct (H doc (cstr_text _) eq_refl) as (m & -> & K). cbn [member bind]. destruct (find_member (ascii "keys") m) as [[| | | |l|]|] eqn:F;
    try (eexists; split; [reflexivity|discriminate]).
  apply find_first in F. specialize (K l F). destruct (length l <? 1)%nat; [eexists; split; [reflexivity|discriminate]|].
  destruct (find_key_total l) as (o & -> & O). { intros j I. destruct (K j I) as (k & -> & _). now exists k. }
  cbn [bind]. destruct o as [j|]; [|eexists; split; [reflexivity|discriminate]]. destruct (K j (O j eq_refl)) as (k & -> & A). cbn [member bind].
  destruct (find_member (ascii "e") k) as [[| | |e| |]|] eqn:Fe; try (eexists; split; [reflexivity|discriminate]).
  destruct (find_member (ascii "n") k) as [[| | |n| |]|] eqn:Fn; try (eexists; split; [reflexivity|discriminate]).
  eexists. split; [reflexivity|]. intros e' n' [= <- <-]. apply find_first in Fe, Fn.
  split; intros c I; apply in_cstr in I; [apply (A e)|apply (A n)]; auto.
Qed.
