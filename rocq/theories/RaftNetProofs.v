(* Proofs about a group of replicas. *)
From Verif Require Import RaftLog Raft RaftSpec RaftChain RaftLogProofs RaftNode RaftRun RaftNet RaftNetSpec Hist MembershipSpec MembershipProofs UtilProofs.

(* --- counting ------------------------------------------------------------- *)
Definition ge_count (c : N) (l : list N) : nat := length (filter (fun x => c <=? x) l).
Lemma ge_count_insert c x l : ge_count c (insert_desc x l) = ge_count c (x :: l).
Proof.
  induction l as [|y l IH]; [reflexivity|]. cbn [insert_desc]. destruct (y <=? x); [reflexivity|].
  unfold ge_count in *. cbn [filter] in *. destruct (c <=? y), (c <=? x); cbn [length] in *; lia.
Qed.
Lemma ge_count_sort c l : ge_count c (sort_desc l) = ge_count c l.
Proof.
  induction l as [|x l IH]; [reflexivity|]. cbn [sort_desc fold_right]. rewrite ge_count_insert.
  unfold ge_count in *. cbn [filter]. destruct (c <=? x); cbn [length]; unfold sort_desc in IH; lia.
Qed.
Fixpoint desc (l : list N) : Prop := match l with [] => True | x :: l' => (forall y, In y l' -> y <= x) /\ desc l' end.
Lemma insert_desc_desc x l : desc l -> desc (insert_desc x l).
Proof.
  induction l as [|y l IH]; cbn [insert_desc desc]; [intros _; split; [intros ? []|exact I]|].
  intros [H1 H2]. destruct (y <=? x) eqn:E; cbn [desc].
  - split; [|split; assumption]. intros z [<-|Hz]; [lia|specialize (H1 z Hz); lia].
  - split; [|now apply IH]. intros z Hz. apply insert_desc_In in Hz as [->|Hz]; [lia|auto].
Qed.
Lemma sort_desc_desc l : desc (sort_desc l).
Proof. induction l as [|x l IH]; [exact I|]. cbn [sort_desc fold_right]. now apply insert_desc_desc. Qed.
Lemma desc_nth l : desc l -> forall j c, nth_error l j = Some c -> (S j <= ge_count c l)%nat.
Proof.
  unfold ge_count. induction l as [|x l IH]; intros Hd j c Hj; [destruct j; discriminate|]. destruct Hd as [H1 H2].
  destruct j as [|j]; cbn [filter].
  - injection Hj as ->. destruct (c <=? c) eqn:E; [cbn; lia|lia].
  - cbn [nth_error] in Hj. specialize (IH H2 j c Hj). pose proof (H1 c (nth_error_In _ _ Hj)).
    destruct (c <=? x) eqn:E; [cbn; lia|lia].
Qed.
Lemma kth_count k l c : kth k (sort_desc l) = Ret c -> 0 < k /\ (N.to_nat k <= ge_count c l)%nat.
Proof.
  unfold kth. destruct (k =? 0) eqn:E; [discriminate|]. destruct (nth_error _ _) as [x|] eqn:En; [|discriminate].
  intros H; injection H as ->. split; [lia|]. rewrite <- ge_count_sort. apply desc_nth in En; [lia|apply sort_desc_desc].
Qed.
Lemma sorted_keys_NoDup {V} (m : list (bytes * V)) : sorted m -> NoDup (map fst m).
Proof.
  induction m as [|[k v] m IH]; cbn [sorted map fst]; [constructor|]. intros [H1 H2]. constructor; [|auto].
  intros Hin. apply in_map_iff in Hin as [[k' v'] [E Hin]]. cbn in E; subst k'. rewrite all_above_iff in H1.
  specialize (H1 _ _ Hin). rewrite blt_irrefl in H1. discriminate.
Qed.

Lemma honest_common (V q1 q2 rolled : pset) sm : sm < psize V -> psize V < 2 ^ 63 ->
  is_quorum V sm q1 -> is_quorum V sm q2 -> psize rolled <= sm ->
  exists k, In k q1 /\ In k q2 /\ ~ In k rolled.
Proof.
  intros H1 H2 Q1 Q2 Hr. pose proof (quorum_overlap V sm q1 q2 H1 H2 Q1 Q2) as Ho.
  destruct (find (fun p => negb (pmem p rolled)) (common q1 q2)) as [k|] eqn:Ef.
  - apply find_some in Ef as [Hin Hn]. unfold common in Hin. apply filter_In in Hin as [Ha Hb].
    exists k. split; [assumption|]. split; [now apply pmem_In|]. apply pmem_nIn. now destruct (pmem k rolled).
  - exfalso. pose proof (find_none _ _ Ef) as Hn.
    assert (incl (common q1 q2) rolled).
    { intros x Hx. specialize (Hn x Hx). cbn in Hn. apply pmem_In. now destruct (pmem x rolled). }
    assert (NoDup (common q1 q2)) by (apply NoDup_filter; apply Q1).
    pose proof (NoDup_incl_length H0 H) as Hl. unfold psize in *. lia.
Qed.

Lemma prefix_nth {A} (a b : list A) i e : prefix a b -> nth_entry a i = Some e -> nth_entry b i = Some e.
Proof.
  intros [c ->] H. pose proof (nth_entry_len _ _ _ H) as Hl. unfold nth_entry in *. destruct (i =? 0); [discriminate|].
  rewrite nth_error_app1; [assumption|]. unfold llen in Hl; lia.
Qed.
Lemma upto_nth_some {A} (a : list A) i j e : nth_entry a i = Some e -> i <= j -> nth_entry (upto j a) i = Some e.
Proof.
  intros H Hij. rewrite <- H. symmetry. apply (upto_nth i j); [|assumption]. symmetry. apply upto_upto. lia.
Qed.
Lemma prefix_le {A} (a b : list A) c : prefix a b -> prefix (upto c a) (upto c b).
Proof.
  intros [x ->]. unfold upto. rewrite firstn_app. apply prefix_app.
Qed.

Section Proofs.
Variable sz : sizes.
Variable hmac : bytes -> bytes -> bytes.
Variable M : members.
Variable sm : N.
Variable L0 : list entry.
Hypothesis Hwf : wf_members M.
Hypothesis Hsm : sm < psize (m_voting M).
Hypothesis Hbig : psize (m_voting M) < 2 ^ 63.
Hypothesis Hch0 : chained hmac L0.
(* what the entries after L0 may hold *)
Variable okx : inner -> Prop.
Hypothesis okx_none : okx INone.
Hypothesis okx_mem : forall g, ~ okx (IMember g).
Let V := m_voting M.

Definition hist := list (bytes * rstate).
(* k has promised Y;  k voted for c in term t *)
Definition PR (P : hist) (k : bytes) (Y : list entry) : Prop :=
  exists n A, In (k, (n, A)) P /\ prefix Y (upto (n_promise n) A).
(* ... in term t or before; what the group started with is promised from the start *)
Definition PRt (P : hist) (t : N) (k : bytes) (Y : list entry) : Prop :=
  exists n A, In (k, (n, A)) P /\ (llen Y <= llen L0 \/ n_term n <= t) /\ prefix Y (upto (n_promise n) A).
Definition VF (P : hist) (k : bytes) (t : N) (c : bytes) : Prop :=
  exists n A, In (k, (n, A)) P /\ n_term n = t /\ n_voted n = Some c.

Definition gG P (t : N) (A : list entry) (k : bytes) (p : N) : Prop := p = 0 \/ (p <= llen A /\ PRt P t k (upto p A)).
Definition gW P (me : bytes) (t : N) (k : bytes) : Prop := In k V /\ (VF P k t me \/ k = me).
Definition gL P (me : bytes) (t : N) : Prop := In me V /\ exists q, is_quorum V sm q /\ forall k, In k q -> gW P me t k.
Definition gC P (me : bytes) (t : N) (X A : list entry) (c : N) : Prop :=
  c <= llen A /\ llen L0 <= c /\
  exists q, is_quorum V sm q /\ forall k, In k q -> PRt P t k (upto c A) \/ (k = me /\ prefix (upto c A) X).
Definition gK (A : list entry) : Prop :=
  prefix L0 A /\ forall i e, llen L0 < i -> nth_entry A i = Some e -> okx (e_inner e).
Definition gMS (m : members) (u : list (N * members)) : Prop := m = M /\ u = [].
Definition gID (me0 me : bytes) (s : N) : Prop := me = me0 /\ s = sm.
Definition gMP P (me : bytes) (n : node) (A : list entry) (m : option bytes * rmsg) : Prop :=
  match m_body (snd m) with
  | VoteResp true => m_term (snd m) = n_term n /\ exists p, fst m = Some p /\ n_voted n = Some p
  | VoteReq _ _ _ => m_term (snd m) = n_term n
  | AppReq prev pterm commit es promise ph =>
      m_term (snd m) = n_term n /\ prev <= llen A /\ (exists rest, skipn (N.to_nat prev) A = es ++ rest) /\
      (prev = 0 \/ exists e, nth_entry A prev = Some e /\ pterm = e_term e /\ ph = e_hash e) /\
      commit <= prev + llen es /\
      exists q, is_quorum V sm q /\ forall k, In k q -> PRt P (n_term n) k (upto commit A) \/ (k = me /\ commit <= n_promise n)
  | AppResp true p _ mp h =>
      m_term (snd m) = n_term n /\ p <= llen A /\ mp <= p /\ mp <= n_promise n /\ (h = [] \/ exists e, nth_entry A p = Some e /\ h = e_hash e)
  | _ => True
  end.
Definition rip P me := RI hmac (gG P) (gW P) (gL P) (gC P me) (gMP P me) gK gMS (gID me).

(* --- more facts, still fine ------------------------------------------------ *)
Lemma PR_mono P P' k Y : incl P P' -> PR P k Y -> PR P' k Y.
Proof. intros H [n [A [H1 H2]]]; exists n, A; auto. Qed.
Lemma PRt_PR P t k Y : PRt P t k Y -> PR P k Y.
Proof. intros [n [A [H1 [_ H2]]]]; exists n, A; auto. Qed.
Lemma PRt_mono P P' t k Y : incl P P' -> PRt P t k Y -> PRt P' t k Y.
Proof. intros H [n [A [H1 H2]]]; exists n, A; auto. Qed.
Lemma PRt_later P t t' k Y : t <= t' -> PRt P t k Y -> PRt P t' k Y.
Proof. intros H [n [A [H1 [H2 H3]]]]; exists n, A; split; [assumption|]. split; [destruct H2; [auto|right; lia]|assumption]. Qed.
Lemma PRt_less P t k Y Y' : prefix Y' Y -> PRt P t k Y -> PRt P t k Y'.
Proof.
  intros H [n [A [H1 [H2 H3]]]]; exists n, A; split; [assumption|]. split; [|eapply prefix_trans; eassumption].
  destruct H2 as [H2|H2]; [left; apply prefix_len in H; unfold llen in *; lia|auto].
Qed.
Lemma VF_mono P P' k t c : incl P P' -> VF P k t c -> VF P' k t c.
Proof. intros H [n [A [H1 H2]]]; exists n, A; auto. Qed.
Lemma PR_less P k Y Y' : prefix Y' Y -> PR P k Y -> PR P k Y'.
Proof. intros H [n [A [H1 H2]]]; exists n, A; split; [assumption|eapply prefix_trans; eassumption]. Qed.
Lemma gW_mono P P' me t k : incl P P' -> gW P me t k -> gW P' me t k.
Proof. intros H [H1 [H2|H2]]; split; auto. left. eapply VF_mono; eassumption. Qed.
Lemma gMP_mono P P' me n A m : incl P P' -> gMP P me n A m -> gMP P' me n A m.
Proof.
  intros H. unfold gMP. destruct (m_body (snd m)); auto.
  intros [H0 [H1 [H2 [H3 [H4 [q [H5 H6]]]]]]]. do 5 (split; [assumption|]). exists q. split; [assumption|].
  intros k Hk. destruct (H6 k Hk); [left; eapply PRt_mono; eassumption|auto].
Qed.
Lemma rip_mono P P' me n A : incl P P' -> rip P me n A -> rip P' me n A.
Proof.
  intros H []. constructor; auto.
  - destruct ri_cm as [H1 [H2 [q [H3 H4]]]]. split; [assumption|]. split; [assumption|]. exists q. split; [assumption|].
    intros k Hk. destruct (H4 k Hk); [left; eapply PRt_mono; eassumption|auto].
  - unfold role_ok in *. destruct (n_role n) as [|votes e|fs hb rel]; auto.
    + destruct ri_ro as [H1 [H2 [H3 H4]]]. do 3 (split; [assumption|]). intros k Hk. destruct (H4 k Hk) as [X Y]. split; [assumption|]. eapply gW_mono; eassumption.
    + destruct ri_ro as [H1 [[H0 [H2 [q [H3 H4]]]] [H5 H6]]]. split; [assumption|]. split.
      * split; [assumption|]. split; [assumption|]. exists q. split; [assumption|]. intros k Hk. eapply gW_mono; eauto.
      * split; [assumption|]. intros k f Hf. destruct (H6 k f Hf) as [X1 [X2 X3]]. do 2 (split; [assumption|]).
        destruct X3 as [X3|[X3 X4]]; [now left|right]. split; [assumption|]. eapply PRt_mono; eassumption.
  - rewrite Forall_forall in *. intros x Hx. eapply gMP_mono; eauto.
Qed.
Lemma rip_ok P me n A : rip P me n A -> n_out n = [] -> ok_node hmac n A.
Proof.
  intros [] Ho. split; [|assumption]. constructor; auto; try exact I.
  - destruct ri_ms as [-> ->]. split; [assumption|intros ? ? []].
  - unfold role_ok in *. destruct (n_role n); auto.
    + destruct ri_ro as [H1 [H2 [H3 H4]]]. do 3 (split; [assumption|]). intros k Hk. split; [apply (H4 k Hk)|exact I].
    + destruct ri_ro as [H1 [[H2 _] [H3 H4]]]. split; [assumption|]. split; [split; [assumption|exact I]|]. split; [assumption|].
      intros k f Hf. destruct (H4 k f Hf) as [X [Y _]]. split; [assumption|]. split; [assumption|exact I].
  - rewrite Ho. constructor.
Qed.

(* --- the hypotheses of RaftNode.v ------------------------------------------ *)
Lemma mship_M n : gMS (n_mem n) (n_unc n) -> mship n = M.
Proof. intros [H1 H2]. unfold mship. rewrite H1, H2. reflexivity. Qed.
Lemma gG0 P t A k : gG P t A k 0. Proof. now left. Qed.
Lemma gGx P t A B k p : gG P t A k p -> gG P t (A ++ B) k p.
Proof. intros [->|[H1 H2]]; [now left|right]. rewrite llen_app, upto_app by assumption. split; [lia|assumption]. Qed.
Lemma gCm P me t X A c t' X' A' : gC P me t X A c -> t <= t' -> prefix X X' -> prefix (upto c A) A' -> gC P me t' X' A' c.
Proof.
  intros [H1 [H2 [q [H3 H4]]]] Ht HX HA.
  pose proof (prefix_len _ _ HA) as Hl. pose proof (upto_len c A H1) as Hu. unfold llen in Hu.
  assert (He : upto c A' = upto c A).
  { rewrite <- (prefix_upto_eq c _ _ HA) by (unfold llen; lia). apply upto_upto; lia. }
  split; [unfold llen; lia|]. split; [assumption|]. exists q. split; [assumption|]. intros k Hk. rewrite He.
  destruct (H4 k Hk) as [H|[H5 H6]]; [left; eapply PRt_later; eassumption|right; split; [assumption|eapply prefix_trans; eassumption]].
Qed.
Lemma seg_len (B : list entry) prev es rest : prev <= llen B -> skipn (N.to_nat prev) B = es ++ rest -> prev + llen es <= llen B.
Proof.
  intros H E. assert (Hl : length (skipn (N.to_nat prev) B) = length (es ++ rest)) by now rewrite E.
  rewrite skipn_length, app_length in Hl. unfold llen in *. lia.
Qed.
Lemma gMPgrow P me n A n' A' m : gMP P me n A m -> grow n A n' A' -> gMP P me n' A' m.
Proof.
  unfold gMP. intros H []. destruct (m_body (snd m)) as [|[|]|prev pterm commit es promise ph|[|] p last mp h| |]; auto.
  - congruence.
  - destruct H as [H1 [p [H2 H3]]]. split; [congruence|]. exists p. split; [assumption|congruence].
  - destruct H as [H0 [H1 [[rest H2] [H3 [H4 [q [H5 H6]]]]]]]. pose proof (seg_len _ _ _ _ H1 H2) as Hs.
    pose proof (prefix_len _ _ gr_log) as Hl. unfold llen in Hl. split; [congruence|]. split; [unfold llen in *; lia|].
    split.
    { destruct gr_log as [c ->]. exists (rest ++ c). rewrite skipn_app, H2, <- app_assoc.
      replace (N.to_nat prev - length A)%nat with 0%nat by (unfold llen in *; lia). reflexivity. }
    split; [destruct H3 as [->|[e [X1 X2]]]; [now left|right; exists e; split; [eapply prefix_nth; eassumption|assumption]]|].
    split; [assumption|]. exists q. split; [assumption|]. intros k Hk. rewrite <- (prefix_upto_eq commit _ _ gr_log) by lia.
    rewrite gr_term. destruct (H6 k Hk) as [X|[X1 X2]]; [auto|right; split; [assumption|lia]].
  - destruct H as [H0 [H1 [H2 [H3 H4]]]]. pose proof (prefix_len _ _ gr_log) as Hl. unfold llen in *. split; [congruence|]. split; [lia|]. split; [assumption|]. split; [lia|].
    destruct H4 as [H4|[e [H4 H5]]]; [auto|right; exists e; split; [eapply prefix_nth; eassumption|assumption]].
Qed.
Lemma gKcut P me t X A c i : gK A -> gC P me t X A c -> c <= i -> gK (upto i A).
Proof.
  intros [H1 H2] [H3 [H4 _]] Hi. split.
  - pose proof (prefix_firstn _ _ H1) as E.
    assert (upto (llen L0) A = L0) by (unfold upto, llen; rewrite Nat2N.id; symmetry; exact E).
    rewrite <- H at 1. apply upto_le. lia.
  - intros j e Hj Hn. apply (H2 j e Hj). eapply prefix_nth; [apply prefix_upto|exact Hn].
Qed.
Lemma gMSadd A e g m mm u : gK A -> gK (A ++ [e]) -> gMS mm u -> e_inner e = IMember g ->
  from_proto g = (m, M_OK) -> gMS mm (u ++ [(llen A + 1, m)]).
Proof.
  intros [H1 _] [_ H2] _ Hi _. exfalso. apply (okx_mem g). rewrite <- Hi. apply (H2 (llen A + 1) e); [|apply nth_entry_app_last].
  pose proof (prefix_len _ _ H1). unfold llen. lia.
Qed.
Lemma gMSsub m u m' u' : gMS m u -> In m' (m :: map snd u) -> incl u' u -> gMS m' u'.
Proof.
  intros [-> ->] [<-|[]] Hi. split; [reflexivity|]. destruct u' as [|x u']; [reflexivity|]. destruct (Hi x (or_introl eq_refl)).
Qed.
Lemma gWme P me n t : gID me (n_me n) (n_sm n) -> gMS (n_mem n) (n_unc n) -> voting n = true -> gW P (n_me n) t (n_me n).
Proof.
  intros _ HM Hv. unfold voting in Hv. rewrite (mship_M n HM) in Hv. apply pmem_In in Hv. split; auto.
Qed.
Lemma gHL P me n t votes : gID me (n_me n) (n_sm n) -> gMS (n_mem n) (n_unc n) -> ssorted votes -> In (n_me n) votes ->
  (forall k, In k votes -> In k (m_voting (mship n)) /\ gW P (n_me n) t k) -> quorum n <= psize votes -> gL P (n_me n) t.
Proof.
  intros [_ Hs] HM Hso Hme HW Hq. split; [apply (proj2 (HW _ Hme))|]. exists votes. split; [|intros k Hk; apply (HW k Hk)].
  split; [now apply ssorted_NoDup|]. split; [intros k Hk; apply (HW k Hk)|]. unfold quorum in Hq. rewrite (mship_M n HM), Hs in Hq. exact Hq.
Qed.
Lemma gKdata A e : gK A -> okx (e_inner e) -> gK (A ++ [e]).
Proof.
  intros [H1 H2] He. split; [eapply prefix_trans; [exact H1|apply prefix_app]|].
  intros i x Hi Hn. pose proof (nth_entry_len _ _ _ Hn) as Hl. rewrite llen_app in Hl. unfold llen in Hl at 2; cbn [length] in Hl.
  destruct (N.eq_dec i (llen A + 1)) as [->|Hd].
  - rewrite nth_entry_app_last in Hn. injection Hn as <-. exact He.
  - apply (H2 i x Hi). rewrite <- Hn. apply (upto_nth i (llen A)); [|lia]. rewrite upto_app by lia. reflexivity.
Qed.
Lemma gKnone A e : gK A -> e_inner e = INone -> gK (A ++ [e]).
Proof. intros H He. apply gKdata; [assumption|]. now rewrite He. Qed.
Lemma gMPquiet P me n A to b : rip P me n A ->
  (match b with VoteReq _ _ _ => n_voted n = Some (n_me n) | VoteResp false | AppResp false _ _ _ _ | TimeoutNow => True | _ => False end) ->
  gMP P me n A (to, RMsg (n_group n) (n_term n) b).
Proof. intros _ Hb. unfold gMP; cbn [snd fst m_body m_term]. destruct b as [|[|]| |[|]| |]; auto; contradiction. Qed.
Lemma gMPgrant P me n A to : rip P me n A -> n_voted n = Some to ->
  gMP P me n A (Some to, RMsg (n_group n) (n_term n) (VoteResp true)).
Proof. intros _ H. unfold gMP; cbn [snd fst m_body m_term]. eauto. Qed.
Lemma gMPapp P me n A to prev es rest : rip P me n A -> is_leader n = true -> prev <= llen A ->
  (prev = 0 \/ at_idx (n_log n) prev <> None) -> skipn (N.to_nat prev) A = es ++ rest ->
  gMP P me n A (Some to, RMsg (n_group n) (n_term n)
    (AppReq prev (if prev =? 0 then 0 else term_at (n_log n) prev) (N.min (n_commit n) (prev + llen es)) es
       (N.min (n_promise n) (prev + llen es)) (if prev =? 0 then [] else hash_at (n_log n) prev))).
Proof.
  intros HR _ Hp Hat Hs. unfold gMP; cbn [snd fst m_body m_term]. split; [reflexivity|]. split; [assumption|]. split; [eauto|]. split.
  - destruct Hat as [->|Hat]; [now left|right]. destruct (at_idx (n_log n) prev) as [e|] eqn:E; [|congruence]. exists e.
    pose proof (st_at_some _ _ _ _ _ (ri_st _ _ _ _ _ _ _ _ _ _ _ HR) E) as Hn. split; [assumption|].
    pose proof (nth_entry_len _ _ _ Hn). destruct (prev =? 0) eqn:E0; [lia|]. unfold term_at, hash_at. rewrite E. auto.
  - split; [lia|]. destruct (ri_cm _ _ _ _ _ _ _ _ _ _ _ HR) as [H1 [H2 [q [H3 H4]]]]. exists q. split; [assumption|].
    intros k Hk. set (c := N.min (n_commit n) (prev + llen es)). assert (Hc : c <= n_commit n) by (unfold c; lia).
    destruct (H4 k Hk) as [X|[X1 X2]]; [left; eapply PRt_less; [|exact X]; now apply upto_le|right].
    split; [assumption|]. pose proof (prefix_len _ _ X2) as Hl.
    pose proof (upto_len (n_commit n) A H1) as Hu. pose proof (upto_len _ A (ri_pl _ _ _ _ _ _ _ _ _ _ _ HR)) as Hv. unfold llen in Hu, Hv. lia.
Qed.
Lemma gMPresp P me n A to p : rip P me n A -> p <= llen A ->
  gMP P me n A (Some to, RMsg (n_group n) (n_term n)
    (AppResp true p (last_idx (n_log n)) (N.min (n_promise n) p) (hash_at (n_log n) p))).
Proof.
  intros HR Hp. unfold gMP; cbn [snd fst m_body m_term]. split; [reflexivity|]. split; [assumption|]. split; [lia|]. split; [lia|].
  unfold hash_at. destruct (at_idx (n_log n) p) as [e|] eqn:E; [right|now left]. exists e. split; [|reflexivity].
  exact (st_at_some _ _ _ _ _ (ri_st _ _ _ _ _ _ _ _ _ _ _ HR) E).
Qed.

Lemma gCadv P me n A fs hb rel c : rip P me n A -> n_role n = Leader fs hb rel ->
  kth (quorum n) (sort_desc (voter_values f_promise n fs ++ [n_promise n])) = Ret c ->
  n_commit n < c -> gC P me (n_term n) (upto (n_promise n) A) A c.
Proof.
  intros HR Hr Hk Hc. apply kth_count in Hk as [Hq0 Hcount].
  pose proof (ri_ro _ _ _ _ _ _ _ _ _ _ _ HR) as Hro. rewrite Hr in Hro. destruct Hro as [Hso [[_ [Hme _]] [_ Hfs]]].
  destruct (ri_id _ _ _ _ _ _ _ _ _ _ _ HR) as [Hid Hs].
  pose proof (mship_M n (ri_ms _ _ _ _ _ _ _ _ _ _ _ HR)) as HM.
  destruct (ri_cm _ _ _ _ _ _ _ _ _ _ _ HR) as [Hc1 [Hc2 _]].
  set (good := filter (fun kv : bytes * repl => c <=? f_promise (snd kv)) (filter (fun kv => pmem (fst kv) V) fs)).
  set (own := if c <=? n_promise n then [n_me n] else []).
  assert (Hcnt : ge_count c (voter_values f_promise n fs ++ [n_promise n]) = length (own ++ map fst good)).
  { unfold ge_count. rewrite filter_app, app_length. rewrite app_length, map_length. unfold own, good, voter_values. rewrite HM. fold V.
    assert (Hf : forall l : list (bytes * repl), length (filter (fun x => c <=? x) (map (fun kv => f_promise (snd kv)) l)) =
      length (filter (fun kv => c <=? f_promise (snd kv)) l)).
    { induction l as [|[k f] l IH]; [reflexivity|]. cbn [map filter snd]. destruct (c <=? f_promise f); cbn [length]; lia. }
    rewrite Hf. cbn [filter]. destruct (c <=? n_promise n); cbn [length]; lia. }
  assert (Hgood : forall k, In k (map fst good) -> k <> n_me n /\ In k V /\ c <= llen A /\ PRt P (n_term n) k (upto c A)).
  { intros k Hin. apply in_map_iff in Hin as [[k' f] [E Hin]]. cbn in E; subst k'. unfold good in Hin.
    apply filter_In in Hin as [Hin Hp]. apply filter_In in Hin as [Hin Hv]. cbn [fst snd] in *.
    destruct (Hfs k f Hin) as [_ [Hne HG]]. split; [assumption|]. split; [now apply pmem_In|].
    destruct HG as [HG|[HG1 HG2]]; [lia|]. split; [lia|]. eapply PRt_less; [|exact HG2]. apply upto_le; lia. }
  assert (Hlen : c <= llen A).
  { destruct (own ++ map fst good) as [|k q] eqn:Eq; [cbn in Hcnt; lia|].
    assert (In k (own ++ map fst good)) as Hin by (rewrite Eq; now left). apply in_app_or in Hin as [Hin|Hin]; [|apply (Hgood k Hin)].
    unfold own in Hin. destruct (c <=? n_promise n) eqn:Ep; [|destruct Hin]. pose proof (ri_pl _ _ _ _ _ _ _ _ _ _ _ HR). lia. }
  split; [assumption|]. split; [lia|]. exists (own ++ map fst good). split.
  - split; [|split].
    + apply NoDup_app_mk.
      * unfold own. destruct (c <=? n_promise n); [constructor; [intros []|constructor]|constructor].
      * apply sorted_keys_NoDup. unfold good. now do 2 apply filter_sorted.
      * intros x Hx Hy. unfold own in Hx. destruct (c <=? n_promise n); [|destruct Hx]. destruct Hx as [<-|[]]. exact (proj1 (Hgood _ Hy) eq_refl).
    + intros k Hin. apply in_app_or in Hin as [Hin|Hin]; [|apply (Hgood k Hin)].
      unfold own in Hin. destruct (c <=? n_promise n); [|destruct Hin]. destruct Hin as [<-|[]]. assumption.
    + assert (Hp : psize (own ++ map fst good) = N.of_nat (ge_count c (voter_values f_promise n fs ++ [n_promise n]))) by (unfold psize; now rewrite Hcnt).
      rewrite Hp. unfold quorum in Hcount. rewrite HM, Hs in Hcount. fold V in Hcount. lia.
  - intros k Hin. apply in_app_or in Hin as [Hin|Hin]; [right|left; apply (Hgood k Hin)].
    unfold own in Hin. destruct (c <=? n_promise n) eqn:Ep; [|destruct Hin]. destruct Hin as [<-|[]]. split; [congruence|]. apply upto_le; lia.
Qed.

Lemma rip_step P me n A o n' a : rip P me n A -> n_out n = [] ->
  op_pre hmac (gG P) (gW P) (gC P me) gK vtrue n A o -> rstep sz hmac n o = Ret (n', a) ->
  exists n1 A', n' = set_out [] n1 /\ a_sent a = n_out n1 /\ rip P me n1 A' /\ EvH n A n1 A' /\
    match a_taken a with
    | None => n_applied n1 = n_applied n /\ (o = OTake -> n_commit n1 <= n_applied n1)
    | Some (i, e) => o = OTake /\ A' = A /\ i = n_applied n + 1 /\ n_applied n1 = i /\ n_applied n < n_commit n /\ nth_entry A i = Some e
    end /\
    match a_loc a with
    | Some (l, RE_OK) => exists ok rnd x, o = ORequest ok rnd x /\ is_leader n = true /\ lc_term l = n_term n /\
        lc_idx l = llen A + 1 /\ nth_entry A' (lc_idx l) = Some (Entry (lc_term l) x (lc_hash l))
    | _ => True
    end.
Proof.
  intros HR Ho Hpre E.
  destruct (rstep_fine sz hmac (gG P) (gW P) (gL P) (gC P me) (gMP P me) gK gMS (gID me) vtrue) with (n := n) (A := A) (o := o) (n' := n') (a := a)
    as [n1 [A' [H1 [H2 [H3 [H4 [H5 H6]]]]]]]; auto.
  - apply gG0.
  - apply gGx.
  - apply gCm.
  - apply gMPgrow.
  - apply gKcut.
  - apply gMSadd.
  - apply gMSsub.
  - apply gWme.
  - apply gHL.
  - apply gCadv.
  - apply gMPquiet.
  - apply gKnone.
  - intros ? ? ? X Y _; now apply gMPgrant.
  - apply gMPapp.
  - apply gMPresp.
  - exists n1, A'. auto 7.
Qed.

(* --- messages on arrival ---------------------------------------------------- *)
Lemma check_idx n A i t h : ok_node hmac n A -> check_log_hash n i t h = Ret RE_OK -> 0 < i -> i <= llen A ->
  exists a, at_idx (n_log n) i = Some a.
Proof.
  intros [HR _] Hc H0 Hl. unfold check_log_hash in Hc. destruct (i =? 0) eqn:E0; [lia|].
  destruct (i <? oldest_idx (n_log n)) eqn:E1; [discriminate|].
  rewrite (st_last _ _ _ (ri_st _ _ _ _ _ _ _ _ _ _ _ HR) (ri_al _ _ _ _ _ _ _ _ _ _ _ HR)) in Hc.
  destruct (llen A <? i) eqn:E2; [lia|]. destruct (at_idx (n_log n) i) as [a|]; [eauto|discriminate].
Qed.
Lemma check_entries_idx n A es : forall i, ok_node hmac n A -> check_entries n es i = Ret RE_OK -> 0 < i ->
  forall j, (j < length es)%nat -> i + N.of_nat j <= llen A -> exists a, at_idx (n_log n) (i + N.of_nat j) = Some a.
Proof.
  induction es as [|e es IH]; intros i HR Hc H0 j Hj Hl; [cbn in Hj; lia|].
  cbn [check_entries] in Hc. apply bind_inv in Hc as [er [E1 E2]]. destruct er; try discriminate. destruct j as [|j].
  - rewrite N.add_0_r in *. eapply check_idx; eauto.
  - replace (i + N.of_nat (S j)) with (i + 1 + N.of_nat j) in * by lia. apply IH; auto; [lia|]. cbn in Hj; lia.
Qed.

Definition unclashed (P : hist) : Prop :=
  forall k1 n1 A1 k2 n2 A2, In (k1, (n1, A1)) P -> In (k2, (n2, A2)) P -> ~ clash A1 A2.

Lemma same_prefix A B i a b : chained hmac A -> chained hmac B -> ~ clash A B ->
  nth_entry A i = Some a -> nth_entry B i = Some b -> e_hash a = e_hash b -> upto i A = upto i B.
Proof. intros HA HB Hn Ha Hb E. destruct (chain_inj_idx hmac A B i a b HA HB Ha Hb E); [assumption|contradiction]. Qed.

Lemma deliver_pre P k n A from to m : unclashed P -> rip P k n A -> n_out n = [] -> In (k, (n, A)) P ->
  (exists nf B, In (from, (nf, B)) P /\ rip P from nf B /\ gMP P from nf B (to, m)) ->
  (forall p, to = Some p -> p = k) -> validate_msg m from n = Ret RE_OK ->
  msg_pre (gG P) (gW P) (gC P k) gK vtrue n A from m.
Proof.
  intros Hun HR Ho Hin [nf [B [HinB [HRB Hm]]]] Hto Hval.
  pose proof (rip_ok _ _ _ _ HR Ho) as Hok.
  pose proof (ri_st _ _ _ _ _ _ _ _ _ _ _ HR) as Hst. pose proof (ri_ch _ _ _ _ _ _ _ _ _ _ _ HR) as HcA.
  pose proof (ri_ch _ _ _ _ _ _ _ _ _ _ _ HRB) as HcB.
  assert (Hnc : ~ clash A B) by (eapply Hun; eassumption).
  unfold msg_pre. unfold gMP in Hm. cbn [snd fst] in Hm. unfold validate_msg in Hval.
  destruct (negb (m_group m =? n_group n)); [discriminate|].
  destruct (negb (pmem from _)); [discriminate|].
  destruct (m_body m) as [lidx lterm lh|g|prev pterm commit es promise ph|s midx mlast mp mh| |]; [intros; exact I| | | |exact I|exact I].
  - intros -> Hv. destruct Hm as [H1 [p [H2 H3]]]. rewrite (mship_M n (ri_ms _ _ _ _ _ _ _ _ _ _ _ HR)) in Hv.
    split; [assumption|]. left. exists nf, B. split; [assumption|]. split; [congruence|].
    rewrite H3. f_equal. rewrite (Hto p H2). symmetry. apply (ri_id _ _ _ _ _ _ _ _ _ _ _ HR).
  - destruct Hm as [H0 [H1 [[rest H2] [H3 [H4 [q [H5 H6]]]]]]]. pose proof (seg_len _ _ _ _ H1 H2) as Hseg.
    apply bind_inv in Hval as [er [E1 E2]]. destruct er; try discriminate. cbv zeta in E2.
    repeat match type of E2 with (if ?b then _ else _) = _ => destruct b; [discriminate|] end.
    assert (HesB : forall j e, nth_error es j = Some e -> nth_entry B (prev + 1 + N.of_nat j) = Some e).
    { intros j e Hj. unfold nth_entry. destruct (_ =? 0) eqn:E0; [lia|].
      replace (N.to_nat (prev + 1 + N.of_nat j - 1)) with (N.to_nat prev + j)%nat by lia.
      rewrite <- nth_error_skipn, H2, nth_error_app1; [assumption|]. apply nth_error_Some. congruence. }
    split.
    + intros A2 j e HK Hj Hl. apply gKdata; [assumption|].
      apply (proj2 (ri_k _ _ _ _ _ _ _ _ _ _ _ HRB) (prev + 1 + N.of_nat j) e); auto.
      destruct HK as [HK _]. apply prefix_len in HK. unfold llen in *. lia.
    + intros X A2 p n1 Hlog Htr Hp Hcm Hprev.
      assert (T : tracks n1 A prev es B).
      { split; [|split; [assumption|split; [eauto|split]]].
        - destruct Hprev as [->|[e [He Ht]]]; [reflexivity|].
          destruct H3 as [->|[e' [He' [-> ->]]]]; [reflexivity|].
          pose proof (st_at_some _ _ _ _ _ Hst He) as Hn.
          pose proof (check_hash_eq hmac n A prev (e_term e') (e_hash e') e Hok E1 He Ht) as Hh.
          apply (same_prefix A B prev e e'); auto.
        - intros j Hj Hl. rewrite Hlog. apply (check_entries_idx n A es (prev + 1)); auto; lia.
        - rewrite Hlog. intros j e a Hj Ha Ht.
          pose proof (check_entries_eq hmac n A es (prev + 1) Hok E2 j e a Hj Ha Ht) as Hh.
          apply (same_prefix A B _ a e); auto. exact (st_at_some _ _ _ _ _ Hst Ha). }
      destruct (Htr B T) as [Hu Hpl].
      destruct (ri_cm _ _ _ _ _ _ _ _ _ _ _ HR) as [_ [Hc2 _]].
      set (c := N.min commit p) in *. split; [lia|]. split; [lia|]. exists q. split; [assumption|].
      intros x Hx. left. rewrite (upto_mono c p A2 B ltac:(lia) Hu).
      assert (Hpx : PRt P (m_term m) x (upto commit B)).
      { rewrite H0. destruct (H6 x Hx) as [?|[-> ?]]; [assumption|]. exists nf, B. split; [assumption|]. split; [right; lia|]. now apply upto_le. }
      eapply PRt_less; [|exact Hpx]. apply upto_le; lia.
  - intros -> Hmid. destruct Hm as [H0 [H1 [H2 [H3 H4]]]].
    apply bind_inv in Hval as [er [E1 E2]].
    destruct (N.eq_dec mp 0) as [->|Hmp]; [now left|right].
    assert (Her : er = RE_OK -> exists a, midx <= llen A -> at_idx (n_log n) midx = Some a).
    { intros ->. destruct (N.le_gt_cases midx (llen A)) as [Hl|Hl].
      - destruct (check_idx n A midx 0 mh Hok E1) as [a Ha]; [lia|assumption|eauto].
      - exists default_entry. lia. }
    destruct er; try discriminate E2.
    destruct (at_idx (n_log n) midx) as [e|] eqn:Ea.
    + pose proof (st_at_some _ _ _ _ _ Hst Ea) as Hn. pose proof (nth_entry_len _ _ _ Hn) as Hl.
      destruct H4 as [H4|[e' [H4 H5]]].
      { exfalso. assert (length (e_hash e) = 32%nat) as X.
        { apply (chained_hash_len hmac A e HcA). unfold nth_entry in Hn. destruct (midx =? 0); [discriminate|]. eapply nth_error_In; eassumption. }
        rewrite <- Hmid, H4 in X. discriminate. }
      assert (Hu : upto midx A = upto midx B) by (apply (same_prefix A B midx e e'); auto; congruence).
      split; [lia|]. exists nf, B. split; [assumption|]. split; [right; lia|]. rewrite (upto_mono mp midx A B H2 Hu). now apply upto_le.
    + destruct (Her eq_refl) as [a Ha]. specialize (Ha Hmid). discriminate.
Qed.

(* --- the group -------------------------------------------------------------- *)
Definition chain_of (P : hist) (k : bytes) (now : rstate) : Prop :=
  (forall n A, In (k, (n, A)) P -> EvH n A (fst now) (snd now)) /\
  (forall n1 A1 n2 A2, In (k, (n1, A1)) P -> In (k, (n2, A2)) P -> EvH n1 A1 n2 A2 \/ EvH n2 A2 n1 A1).
Record ginv (s : net) : Prop := MkGinv {
  gi_past : forall k n A, In (k, (n, A)) (w_past s) -> rip (w_past s) k n A /\ n_out n = [];
  gi_now : forall k n A, lookup k (w_now s) = Some (n, A) -> In (k, (n, A)) (w_past s);
  gi_soup : forall k to m, In (k, (to, m)) (w_soup s) ->
    exists n A, In (k, (n, A)) (w_past s) /\ gMP (w_past s) k n A (to, m);
  gi_taken : forall k i e, In (k, (i, e)) (w_taken s) ->
    exists n A, In (k, (n, A)) (w_past s) /\ i <= n_commit n /\ nth_entry A i = Some e;
  gi_chain : forall k n A, ~ In k (w_rolled s) -> In (k, (n, A)) (w_past s) ->
    exists x, lookup k (w_now s) = Some x /\ chain_of (w_past s) k x
}.

Lemma act_inv k o s : ginv s -> 
  (forall n A, lookup k (w_now s) = Some (n, A) -> op_pre hmac (gG (w_past s)) (gW (w_past s)) (gC (w_past s) k) gK vtrue n A o) ->
  ginv (act sz hmac k o s).
Proof.
  intros HI Hpre. unfold act. destruct (lookup k (w_now s)) as [[n A]|] eqn:El; [|assumption].
  destruct (rstep sz hmac n o) as [[n' a]|] eqn:Er; [|assumption]. cbv zeta.
  pose proof (gi_now s HI k n A El) as Hin. destruct (gi_past s HI k n A Hin) as [HR Ho].
  destruct (rip_step _ k n A o n' a HR Ho (Hpre n A eq_refl) Er) as [n1 [A' [-> [Hs [R1 [V1 [Ht _]]]]]]].
  assert (HA' : regrow A (n_log (set_out [] n1)) = A').
  { apply (regrow_same A A' (n_log n1) (n_applied n1)); [apply (ri_st _ _ _ _ _ _ _ _ _ _ _ R1)|]. destruct (a_taken a) as [[i e]|].
    - destruct Ht as [_ [-> _]]. now left.
    - right. destruct Ht as [-> _]. pose proof (ri_ac _ _ _ _ _ _ _ _ _ _ _ HR). pose proof (ri_al _ _ _ _ _ _ _ _ _ _ _ HR).
      split; [assumption|]. eapply prefix_trans; [apply upto_le|apply (eh_keep _ _ _ _ V1)]; lia. }
  rewrite HA'. set (x := (set_out [] n1, A')). set (P' := w_past s ++ [(k, x)]).
  assert (Hincl : incl (w_past s) P') by (intros y Hy; apply in_or_app; auto).
  assert (Hnew : In (k, x) P') by (apply in_or_app; right; now left).
  constructor; cbn [w_now w_past w_soup w_taken w_rolled]; fold P'.
  - intros k1 m B Hb. unfold P' in Hb. apply in_app_or in Hb as [Hb|[Hb|[]]].
    + destruct (gi_past s HI k1 m B Hb) as [H1 H2]. split; [|assumption]. eapply rip_mono; eassumption.
    + injection Hb as <- <- <-. split; [|reflexivity]. eapply rip_mono; [exact Hincl|]. now apply RI_sent.
  - intros k1 m B Hb. destruct (list_eq_dec N.eq_dec k1 k) as [->|Hne].
    + rewrite lookup_put_same in Hb. assert (Hx : x = (m, B)) by congruence. rewrite <- Hx. exact Hnew.
    + rewrite lookup_put_other in Hb by assumption. apply Hincl. now apply (gi_now s HI).
  - intros k1 to m Hb. apply in_app_or in Hb as [Hb|Hb].
    + destruct (gi_soup s HI k1 to m Hb) as [n2 [B [H1 H2]]]. exists n2, B. split; [auto|]. eapply gMP_mono; eassumption.
    + apply in_map_iff in Hb as [[to' m'] [E Hb]]. injection E as <- <- <-. rewrite Hs in Hb.
      pose proof (ri_out _ _ _ _ _ _ _ _ _ _ _ R1) as Hout. rewrite Forall_forall in Hout. specialize (Hout _ Hb).
      exists (set_out [] n1), A'. split; [exact Hnew|]. eapply gMP_mono; [exact Hincl|]. exact Hout.
  - intros k1 i e Hb. apply in_app_or in Hb as [Hb|Hb].
    + destruct (gi_taken s HI k1 i e Hb) as [n2 [B [H1 H2]]]. exists n2, B. auto.
    + destruct (a_taken a) as [[i' e']|]; [|destruct Hb]. destruct Hb as [Hb|[]]. injection Hb as <- <- <-.
      destruct Ht as [_ [_ [H1 [H2 [H3 H4]]]]]. exists n, A. split; [auto|]. split; [lia|assumption].
  - intros k1 m B Hnr Hb. destruct (list_eq_dec N.eq_dec k1 k) as [->|Hne].
    + exists x. split; [apply lookup_put_same|].
      destruct (gi_chain s HI k n A Hnr Hin) as [y [Hy [C1 C2]]]. rewrite El in Hy. injection Hy as <-. cbn [fst snd] in C1.
      assert (C3 : forall m2 B2, In (k, (m2, B2)) (w_past s) -> EvH m2 B2 (fst x) (snd x)).
      { intros m2 B2 H2. eapply EvH_trans; [exact (C1 m2 B2 H2)|]. now apply EvH_sent. }
      split.
      * intros m2 B2 H2. unfold P' in H2. apply in_app_or in H2 as [H2|[H2|[]]]; [now apply C3|].
        injection H2 as <- <-. apply EvH_refl.
      * intros m1 B1 m2 B2 H1 H2. unfold P' in H1, H2. apply in_app_or in H1 as [H1|[H1|[]]], H2 as [H2|[H2|[]]].
        -- now apply C2.
        -- left. injection H2 as <- <-. now apply C3.
        -- right. injection H1 as <- <-. now apply C3.
        -- left. injection H1 as <- <-. injection H2 as <- <-. apply EvH_refl.
    + assert (Hb' : In (k1, (m, B)) (w_past s)).
      { unfold P' in Hb. apply in_app_or in Hb as [Hb|[Hb|[]]]; [assumption|]. injection Hb as -> _ _. congruence. }
      destruct (gi_chain s HI k1 m B Hnr Hb') as [y [Hy [C1 C2]]]. exists y. rewrite lookup_put_other by assumption. split; [assumption|].
      assert (Hold : forall m2 B2, In (k1, (m2, B2)) P' -> In (k1, (m2, B2)) (w_past s)).
      { intros m2 B2 H2. unfold P' in H2. apply in_app_or in H2 as [H2|[H2|[]]]; [assumption|]. injection H2 as -> _ _. congruence. }
      split; [intros; apply C1; auto|intros; apply C2; auto].
Qed.

Definition ev_fixed (ev : event) : Prop :=
  match ev with ECall _ (ORequest _ _ x) => okx x | _ => True end.
Lemma step_inv s ev : ginv s -> unclashed (w_past s) -> ev_fixed ev -> ginv (net_step sz hmac s ev).
Proof.
  intros HI Hun Hev. destruct ev as [k o|k j ok1 ok2 rnd|k j]; cbn [net_step].
  - assert (Hc : match o with OReceive _ _ _ _ _ => False | _ => True end -> ginv (act sz hmac k o s)).
    { intros Ho. apply act_inv; [assumption|]. intros n A _. destruct o; cbn [op_pre]; auto; [contradiction|].
      intros A1 _ HK _. apply gKdata; [assumption|]. exact Hev. }
    destruct o; auto.
  - destruct (nth_error (w_soup s) j) as [[from [to m]]|] eqn:Ej; [|assumption].
    destruct (match to with Some p => beq p k | None => _ end) eqn:Ed; [|assumption].
    apply act_inv; [assumption|]. intros n A El. cbn [op_pre]. intros Hval.
    pose proof (gi_now s HI k n A El) as Hin. destruct (gi_past s HI k n A Hin) as [HR Ho].
    apply (deliver_pre _ k n A from to m Hun HR Ho Hin); [|intros p ->; now apply beq_eq|assumption].
    destruct (gi_soup s HI from to m (nth_error_In _ _ Ej)) as [nf [B [H1 H2]]].
    exists nf, B. split; [assumption|]. split; [apply (gi_past s HI from nf B H1)|assumption].
  - destruct (nth_error (w_past s) j) as [[k' x]|] eqn:Ej; [|assumption].
    destruct (beq k' k) eqn:Ek; [|assumption]. apply beq_eq in Ek. subst k'. apply nth_error_In in Ej.
    constructor; cbn [w_now w_past w_soup w_taken w_rolled]; try apply HI.
    + intros k1 n A Hl. destruct (list_eq_dec N.eq_dec k1 k) as [->|Hne].
      * rewrite lookup_put_same in Hl. injection Hl as ->. assumption.
      * rewrite lookup_put_other in Hl by assumption. now apply HI.
    + intros k1 n A Hnr Hin. rewrite pins_In in Hnr. destruct (gi_chain s HI k1 n A ltac:(tauto) Hin) as [y [Hy C]].
      exists y. split; [|assumption]. rewrite lookup_put_other by tauto. assumption.
Qed.

Lemma step_past s ev : incl (w_past s) (w_past (net_step sz hmac s ev)).
Proof.
  assert (Ha : forall k o, incl (w_past s) (w_past (act sz hmac k o s))).
  { intros k o. unfold act. destruct (lookup k (w_now s)) as [[n A]|]; [|apply incl_refl].
    destruct (rstep sz hmac n o) as [[n' a]|]; [|apply incl_refl]. intros y Hy. cbn. apply in_or_app; auto. }
  destruct ev as [k o|k j ok1 ok2 rnd|k j]; cbn [net_step].
  - destruct o; try apply Ha; apply incl_refl.
  - destruct (nth_error _ _) as [[from [to m]]|]; [|apply incl_refl]. destruct (match to with Some _ => _ | None => _ end); [apply Ha|apply incl_refl].
  - destruct (nth_error _ _) as [[k' x]|]; [|apply incl_refl]. destruct (beq k' k); apply incl_refl.
Qed.
Lemma run_past evs : forall s, incl (w_past s) (w_past (net_run sz hmac s evs)).
Proof.
  induction evs as [|ev evs IH]; intros s; cbn [net_run fold_left]; [apply incl_refl|].
  eapply incl_tran; [apply (step_past s ev)|apply IH].
Qed.
Lemma run_inv evs : forall s, ginv s -> Forall ev_fixed evs -> unclashed (w_past (net_run sz hmac s evs)) -> ginv (net_run sz hmac s evs).
Proof.
  induction evs as [|ev evs IH]; intros s HI Hf Hun; cbn [net_run fold_left]; [assumption|].
  inversion Hf; subst. apply IH; auto. apply step_inv; auto.
  intros k1 n1 A1 k2 n2 A2 H3 H4. cbn [net_run fold_left] in Hun.
  assert (Hi : incl (w_past s) (w_past (net_run sz hmac (net_step sz hmac s ev) evs))).
  { eapply incl_tran; [apply (step_past s ev)|apply run_past]. }
  apply (Hun k1 n1 A1 k2 n2 A2); apply Hi; assumption.
Qed.

(* --- conclusions ------------------------------------------------------------ *)
Lemma honest_promises s k Y1 Y2 : ginv s -> ~ In k (w_rolled s) -> PR (w_past s) k Y1 -> PR (w_past s) k Y2 ->
  prefix Y1 Y2 \/ prefix Y2 Y1.
Proof.
  intros HI Hn [n1 [A1 [I1 P1]]] [n2 [A2 [I2 P2]]].
  destruct (gi_chain s HI k n1 A1 Hn I1) as [[n A] [_ [C _]]]. cbn [fst snd] in C.
  apply (prefix_linear Y1 Y2 A).
  - eapply prefix_trans; [exact P1|]. eapply prefix_trans; [apply upto_le|apply (eh_keep _ _ _ _ (C n1 A1 I1))]. lia.
  - eapply prefix_trans; [exact P2|]. eapply prefix_trans; [apply upto_le|apply (eh_keep _ _ _ _ (C n2 A2 I2))]. lia.
Qed.
Lemma honest_votes s k t c1 c2 : ginv s -> ~ In k (w_rolled s) -> VF (w_past s) k t c1 -> VF (w_past s) k t c2 -> c1 = c2.
Proof.
  intros HI Hn [n1 [A1 [I1 [T1 V1]]]] [n2 [A2 [I2 [T2 V2]]]].
  destruct (gi_chain s HI k n1 A1 Hn I1) as [x [_ [_ C]]].
  destruct (C _ _ _ _ I1 I2) as [E|E].
  - destruct (eh_vote _ _ _ _ E ltac:(congruence)); congruence.
  - destruct (eh_vote _ _ _ _ E ltac:(congruence)); congruence.
Qed.
Lemma commits_agree s k1 n1 A1 k2 n2 A2 : ginv s -> psize (w_rolled s) <= sm ->
  In (k1, (n1, A1)) (w_past s) -> In (k2, (n2, A2)) (w_past s) ->
  prefix (upto (n_commit n1) A1) (upto (n_commit n2) A2) \/ prefix (upto (n_commit n2) A2) (upto (n_commit n1) A1).
Proof.
  intros HI Hr I1 I2.
  assert (Hq : forall k n A, In (k, (n, A)) (w_past s) -> exists q, is_quorum V sm q /\ forall x, In x q -> PR (w_past s) x (upto (n_commit n) A)).
  { intros k n A Hin. destruct (gi_past s HI k n A Hin) as [HR _]. destruct (ri_cm _ _ _ _ _ _ _ _ _ _ _ HR) as [_ [_ [q [H1 H2]]]].
    exists q. split; [assumption|]. intros x Hx. destruct (H2 x Hx) as [?|[-> H3]]; [eapply PRt_PR; eassumption|]. exists n, A. auto. }
  destruct (Hq _ _ _ I1) as [q1 [Q1 P1]], (Hq _ _ _ I2) as [q2 [Q2 P2]].
  destruct (honest_common V q1 q2 (w_rolled s) sm Hsm Hbig Q1 Q2 Hr) as [k [K1 [K2 K3]]].
  apply (honest_promises s k); auto.
Qed.
Lemma agree_entry s k1 n1 A1 k2 n2 A2 i e1 e2 : ginv s -> psize (w_rolled s) <= sm ->
  In (k1, (n1, A1)) (w_past s) -> In (k2, (n2, A2)) (w_past s) ->
  i <= n_commit n1 -> i <= n_commit n2 -> nth_entry A1 i = Some e1 -> nth_entry A2 i = Some e2 -> e1 = e2.
Proof.
  intros HI Hr I1 I2 L1 L2 E1 E2.
  apply (upto_nth_some _ _ (n_commit n1)) in E1; [|assumption]. apply (upto_nth_some _ _ (n_commit n2)) in E2; [|assumption].
  destruct (commits_agree s _ _ _ _ _ _ HI Hr I1 I2) as [H|H].
  - pose proof (prefix_nth _ _ _ _ H E1). congruence.
  - pose proof (prefix_nth _ _ _ _ H E2). congruence.
Qed.
Lemma one_leader s k1 n1 A1 k2 n2 A2 : ginv s -> psize (w_rolled s) <= sm ->
  In (k1, (n1, A1)) (w_past s) -> In (k2, (n2, A2)) (w_past s) ->
  is_leader n1 = true -> is_leader n2 = true -> n_term n1 = n_term n2 -> k1 = k2.
Proof.
  intros HI Hr I1 I2 L1 L2 Ht.
  assert (Hq : forall k n A, In (k, (n, A)) (w_past s) -> is_leader n = true ->
     exists q, is_quorum V sm q /\ forall x, In x q -> VF (w_past s) x (n_term n) k).
  { intros k n A Hin Hl. destruct (gi_past s HI k n A Hin) as [HR _]. pose proof (ri_ro _ _ _ _ _ _ _ _ _ _ _ HR) as Hro.
    destruct (ri_id _ _ _ _ _ _ _ _ _ _ _ HR) as [Hid _].
    unfold is_leader in Hl. destruct (n_role n) as [| |fs hb rel]; try discriminate. destruct Hro as [_ [[_ [_ [q [H1 H2]]]] [Hv _]]].
    exists q. split; [assumption|]. intros x Hx. rewrite <- Hid. destruct (H2 x Hx) as [_ [?| ->]]; [assumption|].
    exists n, A. rewrite Hid in *. auto. }
  destruct (Hq _ _ _ I1 L1) as [q1 [Q1 P1]], (Hq _ _ _ I2 L2) as [q2 [Q2 P2]].
  destruct (honest_common V q1 q2 (w_rolled s) sm Hsm Hbig Q1 Q2 Hr) as [k [K1 [K2 K3]]].
  apply (honest_votes s k (n_term n1)); auto. rewrite Ht. auto.
Qed.

(* --- the start -------------------------------------------------------------- *)
Lemma seat_first x group n : (s_drop x = 0%nat \/ (s_drop x < length L0)%nat) -> seat_node sz hmac group M sm L0 x = Ret n ->
  llen L0 <= n_promise n /\ prefix L0 (regrow L0 (n_log n)) /\ n_applied n = llen L0.
Proof.
  intros Hd E. unfold seat_node in E.
  destruct (new_node_fine sz hmac tG tW tL tC (tMP vtrue) tK tMS tID vtrue) with (group := group) (me := s_id x) (mem := M)
    (log := RLog (skipn (s_drop x) L0) (1 + N.of_nat (s_drop x)) (s_bytes x) (s_max x)) (cfg := s_cfg x) (committed := true) (sm := sm)
    (ok := s_ok x) (rnd := s_rnd x) (A := L0) (d := s_drop x) (n := n)
    as [n0 [A' [[F W] [Ho [_ [_ [_ [_ [_ [_ [_ [R0 [C0 [P0 P1]]]]]]]]]]]]]]; auto; try (intros; exact I).
  - intros. eapply tMPgrow; eassumption.
  - apply tMSadd.
  - apply tMSsub.
  - intros n1 A1 to b _ Hb. unfold tMP; cbn [snd fst m_body m_term]. destruct b as [| [|] | | | |]; auto; contradiction.
  - intros n1 A1 to _ G1 G2. unfold tMP; cbn [snd fst m_body m_term]. split; [reflexivity|]. exists to; auto.
  - destruct Hd; auto.
  - split; [assumption|intros i y []].
  - pose proof (ev_keep _ _ _ _ W) as Hk. rewrite P1, C0 in Hk. rewrite upto_all in Hk by lia.
    pose proof (ev_promise _ _ _ _ W). rewrite P1, C0 in H. split; [assumption|].
    split; [|now rewrite (ev_applied _ _ _ _ W), P0, C0].
    rewrite (regrow_same L0 A' (n_log n) (n_applied n)); [assumption|apply (ri_st _ _ _ _ _ _ _ _ _ _ _ F)|].
    right. rewrite (ev_applied _ _ _ _ W), P0, C0. split; [lia|]. rewrite upto_all by lia. assumption.
Qed.
Lemma seat_rip P x group n : (s_drop x = 0%nat \/ (s_drop x < length L0)%nat) -> (forall k, In k V -> PR P k L0) ->
  seat_node sz hmac group M sm L0 x = Ret n -> rip P (s_id x) n (regrow L0 (n_log n)) /\ n_out n = [].
Proof.
  intros Hd HP E. unfold seat_node in E.
  destruct (new_node_fine sz hmac (gG P) (gW P) (gL P) (gC P (s_id x)) (gMP P (s_id x)) gK gMS (gID (s_id x)) vtrue) with (group := group) (me := s_id x) (mem := M)
    (log := RLog (skipn (s_drop x) L0) (1 + N.of_nat (s_drop x)) (s_bytes x) (s_max x)) (cfg := s_cfg x) (committed := true) (sm := sm)
    (ok := s_ok x) (rnd := s_rnd x) (A := L0) (d := s_drop x) (n := n)
    as [n0 [A' [[F W] [Ho [_ [_ [_ [_ [_ [_ [_ [R0 [C0 [P0 P1]]]]]]]]]]]]]]; auto.
  - apply gG0.
  - apply gGx.
  - apply gCm.
  - apply gMPgrow.
  - apply gKcut.
  - apply gMSadd.
  - apply gMSsub.
  - apply gWme.
  - apply gHL.
  - apply gCadv.
  - apply gMPquiet.
  - apply gKnone.
  - intros ? ? ? X Y _; now apply gMPgrant.
  - apply gMPapp.
  - apply gMPresp.
  - destruct Hd; auto.
  - split; [apply prefix_refl|]. intros i e Hi Hn. apply nth_entry_len in Hn. lia.
  - split; reflexivity.
  - split; reflexivity.
  - intros X. split; [lia|]. split; [lia|]. exists V. split.
    + split; [apply ssorted_NoDup, Hwf|]. split; [apply incl_refl|]. unfold quorum_size. apply N.le_min_l.
    + intros k Hk. left. rewrite upto_all by lia. destruct (HP k Hk) as [n1 [A1 [X1 X2]]]. exists n1, A1. split; [assumption|]. split; [left; lia|assumption].
  - split; [|assumption]. 
    rewrite (regrow_same L0 A' (n_log n) (n_applied n)); [assumption|apply (ri_st _ _ _ _ _ _ _ _ _ _ _ F)|].
    right. rewrite (ev_applied _ _ _ _ W), P0, C0. split; [lia|]. rewrite upto_all by lia.
    pose proof (ev_keep _ _ _ _ W) as Hk. rewrite P1, C0 in Hk. rewrite upto_all in Hk by lia. assumption.
Qed.
Lemma seated_in group xs : forall p, seated sz hmac group M sm L0 xs = Ret p ->
  map fst p = map s_id xs /\
  forall k n A, In (k, (n, A)) p -> exists x, In x xs /\ k = s_id x /\ seat_node sz hmac group M sm L0 x = Ret n /\ A = regrow L0 (n_log n).
Proof.
  induction xs as [|x xs IH]; intros p E; cbn [seated] in E.
  - injection E as <-. split; [reflexivity|intros ? ? ? []].
  - apply bind_inv in E as [n [E1 E]]. apply bind_inv in E as [r [E2 E]]. injection E as <-.
    destruct (IH r E2) as [H1 H2]. split; [cbn; now f_equal|]. intros k m A [Hin|Hin].
    + injection Hin as <- <- <-. exists x. split; [now left|auto].
    + destruct (H2 k m A Hin) as [y [Hy Hr]]. exists y. split; [now right|assumption].
Qed.
Lemma fold_put_in (p : hist) k x : lookup k (fold_right (fun kv m => put (fst kv) (snd kv) m) [] p) = Some x -> In (k, x) p.
Proof.
  induction p as [|[j y] p IH]; cbn [fold_right fst snd]; [discriminate|].
  destruct (list_eq_dec N.eq_dec k j) as [->|Hne].
  - rewrite lookup_put_same. intros H; injection H as ->. now left.
  - rewrite lookup_put_other by assumption. right; auto.
Qed.
Lemma fold_put_nodup (p : hist) k x : NoDup (map fst p) -> In (k, x) p ->
  lookup k (fold_right (fun kv m => put (fst kv) (snd kv) m) [] p) = Some x.
Proof.
  induction p as [|[j y] p IH]; cbn [fold_right fst snd map]; intros Hn Hin; [destruct Hin|]. inversion Hn; subst.
  destruct Hin as [Hin|Hin].
  - injection Hin as -> ->. apply lookup_put_same.
  - rewrite lookup_put_other; [auto|]. intros ->. apply H1. apply in_map_iff. exists (j, x). auto.
Qed.
Lemma nodup_same (p : hist) k x y : NoDup (map fst p) -> In (k, x) p -> In (k, y) p -> x = y.
Proof. intros H H1 H2. apply fold_put_nodup in H1, H2; auto. congruence. Qed.

Lemma start_inv group xs s : NoDup (map s_id xs) -> incl V (map s_id xs) ->
  Forall (fun x => s_drop x = 0%nat \/ (s_drop x < length L0)%nat) xs ->
  start sz hmac group M sm L0 xs = Ret s -> ginv s.
Proof.
  intros Hnd Hall Hd E. unfold start in E. apply bind_inv in E as [p [E1 E]]. injection E as <-.
  destruct (seated_in group xs p E1) as [Hids Hin]. rewrite Forall_forall in Hd.
  assert (HP : forall k, In k V -> PR p k L0).
  { intros k Hk. apply Hall in Hk. rewrite <- Hids in Hk. apply in_map_iff in Hk as [[k' [n A]] [<- Hk]]. cbn [fst].
    destruct (Hin _ _ _ Hk) as [x [Hx [_ [En ->]]]]. destruct (seat_first x group n (Hd x Hx) En) as [H1 [H2 _]].
    exists n, (regrow L0 (n_log n)). split; [assumption|]. pose proof (prefix_le _ _ (n_promise n) H2) as Hp.
    rewrite upto_all in Hp by assumption. assumption. }
  rewrite <- Hids in Hnd.
  constructor; cbn [w_now w_past w_soup w_taken w_rolled].
  - intros k n A Hk. destruct (Hin k n A Hk) as [x [Hx [-> [En ->]]]]. apply (seat_rip p x group n (Hd x Hx) HP En).
  - intros k n A. apply fold_put_in.
  - intros ? ? ? [].
  - intros ? ? ? [].
  - intros k n A _ Hk. exists (n, A). split; [now apply fold_put_nodup|]. split.
    + intros n2 A2 H2. pose proof (nodup_same p k _ _ Hnd Hk H2) as E2. injection E2 as <- <-. apply EvH_refl.
    + intros n1 A1 n2 A2 H1 H2. pose proof (nodup_same p k _ _ Hnd H1 H2) as E2. injection E2 as <- <-. left; apply EvH_refl.
Qed.
End Proofs.

(* any request but one for another membership *)
Definition no_member (x : inner) : Prop := match x with IMember _ => False | _ => True end.
Lemma fixed_forall evs : fixed_membership evs -> Forall (ev_fixed no_member) evs.
Proof.
  intros H. apply Forall_forall. intros ev Hin. destruct ev as [k o| |]; cbn; auto. destruct o; auto. destruct x; cbn; auto.
  exact (H _ _ _ _ Hin).
Qed.
Lemma reached_inv sz hmac M sm evs s : net_reached sz hmac M sm evs s -> fixed_membership evs -> no_clash s ->
  sm < psize (m_voting M) /\ psize (m_voting M) < 2 ^ 63 /\ exists L0, ginv hmac M sm L0 no_member s.
Proof.
  intros [group [L0 [xs [s0 [[H1 [H2 [H3 [H4 [H5 [H6 H7]]]]]] [E ->]]]]]] Hf Hun.
  split; [assumption|]. split; [assumption|]. exists L0.
  assert (Hno : forall g, ~ no_member (IMember g)) by (cbn; auto).
  apply run_inv; auto; [exact I| |now apply fixed_forall].
  eapply start_inv; try eassumption; exact I.
Qed.
