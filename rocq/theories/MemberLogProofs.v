(* The membership that a replica acts by is that of its log: proofs. *)
From Verif Require Import RaftLog Raft RaftSpec RaftChain RaftLogProofs RaftNode RaftRun RaftNet RaftNetSpec RaftShape
  RaftMoveSpec RaftMoveProofs Membership MembershipSpec MembershipProofs MemberLogSpec UtilProofs.

(* --- the memberships in a list of entries, with their indices ---------------- *)
Fixpoint mems (i : N) (es : list entry) : list (N * members) :=
  match es with
  | [] => []
  | e :: es' => match sets_members e with Some m => [(i, m)] | None => [] end ++ mems (i + 1) es'
  end.
Lemma mems_app a b : forall i, mems i (a ++ b) = mems i a ++ mems (i + llen a) b.
Proof.
  induction a as [|e a IH]; intros i; cbn [app mems].
  - unfold llen; cbn. now rewrite N.add_0_r.
  - rewrite IH, app_assoc. do 2 f_equal. unfold llen; cbn [length]. lia.
Qed.
Lemma mems_ge es : forall i j m, In (j, m) (mems i es) -> i <= j /\ j < i + llen es.
Proof.
  induction es as [|e es IH]; intros i j m H; cbn [mems] in H; [contradiction|].
  unfold llen in *; cbn [length]. apply in_app_or in H as [H|H].
  - destruct (sets_members e); [|contradiction]. destruct H as [H|[]]. injection H as <- _. lia.
  - destruct (IH _ _ _ H). lia.
Qed.
Lemma mems_last es : forall i M, last (map snd (mems i es)) M = members_after M es.
Proof.
  induction es as [|e es IH]; intros i M; cbn [mems]; [reflexivity|]. unfold members_after; cbn [fold_left].
  fold (members_after match sets_members e with Some m' => m' | None => M end es). rewrite <- (IH (i + 1)).
  destruct (sets_members e) as [m|]; cbn [app map snd]; [|reflexivity].
  generalize (map snd (mems (i + 1) es)); intros l. revert m. induction l as [|x l IHl]; intros m; [reflexivity|].
  cbn [last]. destruct l as [|y l]; [reflexivity|]. now rewrite <- !(IHl m).
Qed.
Lemma after_app M a b : members_after M (a ++ b) = members_after (members_after M a) b.
Proof. unfold members_after. apply fold_left_app. Qed.

Lemma pop_none c m u : (forall j x, In (j, x) u -> c < j) -> pop_committed c m u = (m, u).
Proof.
  destruct u as [|[j x] u]; [reflexivity|]. intros H. cbn [pop_committed]. specialize (H j x (or_introl eq_refl)).
  destruct (j <=? c) eqn:E; [lia|reflexivity].
Qed.
Lemma pop_mems es : forall i c m, i <= c + 1 ->
  pop_committed c m (mems i es) = (members_after m (firstn (N.to_nat (c + 1 - i)) es), mems (c + 1) (skipn (N.to_nat (c + 1 - i)) es)).
Proof.
  induction es as [|e es IH]; intros i c m Hi; cbn [mems].
  { rewrite firstn_nil, skipn_nil. reflexivity. }
  destruct (N.eq_dec i (c + 1)) as [->|Hne].
  { rewrite N.sub_diag. cbn [N.to_nat firstn skipn]. fold (mems (c + 1) (e :: es)). rewrite pop_none; [reflexivity|].
    intros j x H. apply (mems_ge (e :: es) (c + 1) j x) in H. lia. }
  replace (N.to_nat (c + 1 - i)) with (S (N.to_nat (c + 1 - (i + 1)))) by lia. cbn [firstn skipn].
  specialize (IH (i + 1) c). unfold members_after in *. cbn [fold_left].
  destruct (sets_members e) as [m'|]; cbn [app]; [|apply IH; lia]. cbn [pop_committed]. destruct (i <=? c) eqn:E; [|lia]. apply IH. lia.
Qed.
Lemma cancel_mems es i b : i <= b + 1 -> rev (pop_cancelled b (rev (mems i es))) = mems i (firstn (N.to_nat (b + 1 - i)) es).
Proof.
  intros Hi. set (k := N.to_nat (b + 1 - i)). rewrite <- (firstn_skipn k es) at 1. rewrite mems_app, rev_app_distr.
  assert (H2 : forall j x, In (j, x) (rev (mems (i + llen (firstn k es)) (skipn k es))) -> b < j).
  { intros j x H. apply in_rev, mems_ge in H. unfold llen in H. rewrite firstn_length in H.
    assert (Hk : (length es <= k)%nat \/ (k <= length es)%nat) by lia. destruct Hk as [Hk|Hk].
    - rewrite skipn_all2 in H by exact Hk. cbn in H. lia.
    - lia. }
  assert (H1 : forall j x, In (j, x) (rev (mems i (firstn k es))) -> j <= b).
  { intros j x H. apply in_rev, mems_ge in H. unfold llen in H. rewrite firstn_length in H. lia. }
  revert H1 H2. generalize (rev (mems (i + llen (firstn k es)) (skipn k es))) as u. intros u H1 H2.
  enough (pop_cancelled b (u ++ rev (mems i (firstn k es))) = rev (mems i (firstn k es))) as -> by apply rev_involutive.
  induction u as [|[j x] u IH]; cbn [app].
  - destruct (rev (mems i (firstn k es))) as [|[j x] w]; [reflexivity|]. cbn [pop_cancelled]. specialize (H1 j x (or_introl eq_refl)).
    destruct (b <? j) eqn:E; [lia|reflexivity].
  - cbn [pop_cancelled]. specialize (H2 j x) as Hj. specialize (Hj (or_introl eq_refl)). destruct (b <? j) eqn:E; [|lia].
    apply IH. intros j' x' H. apply (H2 j' x'). now right.
Qed.
Lemma pop_same c : forall m u, (length (snd (pop_committed c m u)) <= length u)%nat /\
  (length (snd (pop_committed c m u)) = length u -> pop_committed c m u = (m, u)).
Proof.
  intros m u. revert m. induction u as [|[j x] u IH]; intros m; cbn [pop_committed]; [auto|].
  destruct (j <=? c); cbn [snd length]; [|auto]. destruct (IH x) as [H1 H2]. split; [lia|]. intros H. lia.
Qed.
Lemma cancelled_length b r : (length (pop_cancelled b r) <= length r)%nat.
Proof. induction r as [|[j x] r IH]; cbn [pop_cancelled]; [auto|]. destruct (b <? j); cbn [length]; lia. Qed.

Lemma cancelled_same b u : length (rev (pop_cancelled b (rev u))) = length u -> rev (pop_cancelled b (rev u)) = u.
Proof.
  rewrite rev_length, <- (rev_length u). intros H. rewrite <- (rev_involutive u) at 2. f_equal. revert H. generalize (rev u) as r. intros r H.
  destruct r as [|[j x] r]; [reflexivity|]. cbn [pop_cancelled] in *. destruct (_ <? _); [|reflexivity].
  pose proof (cancelled_length b r) as X. cbn [length] in H. lia.
Qed.

Section Mem.
Variable sz : sizes.
Variable hmac : bytes -> bytes -> bytes.
Variable M : members.
Variable L0 : list entry.

(* the membership of n is that of A *)
Definition fit (n : node) (A : list entry) : Prop :=
  n_mem n = members_after M (beyond L0 (upto (n_commit n) A)) /\
  n_unc n = mems (n_commit n + 1) (skipn (N.to_nat (n_commit n)) A).
Record J (n : node) (A : list entry) : Prop := MkJ {
  j_st : stored (n_log n) (n_applied n) A;
  j_ac : n_applied n <= n_commit n;
  j_al : n_applied n <= llen A;
  j_b : llen L0 <= n_commit n;
  j_fit : fit n A
}.
(* nothing of it changes *)
Record keep (n n' : node) : Prop := MkKeep { kp_log : n_log n' = n_log n; kp_commit : n_commit n' = n_commit n; kp_applied : n_applied n' = n_applied n;
  kp_mem : n_mem n' = n_mem n; kp_unc : n_unc n' = n_unc n }.
Lemma keep_refl n : keep n n. Proof. constructor; reflexivity. Qed.
Lemma keep_trans a b c : keep a b -> keep b c -> keep a c. Proof. intros [] []; constructor; congruence. Qed.
Lemma keep_J n n' A : keep n n' -> J n A -> J n' A.
Proof. intros [K1 K2 K3 K4 K5] []. constructor; unfold fit in *; rewrite ?K1, ?K2, ?K3, ?K4, ?K5; auto. Qed.
Lemma role_keep r n : keep n (set_role r n). Proof. constructor; reflexivity. Qed.
Lemma hmc_keep n : keep n (handle_membership_change n).
Proof. unfold handle_membership_change. destruct (n_role n); try apply keep_refl. apply role_keep. Qed.
Lemma add_msg_keep to m n n' : add_msg to m n = Ret n' -> keep n n'.
Proof. unfold add_msg. destruct to; [destruct (beq _ _); [discriminate|]|destruct (_ && _)%bool]; intros E; injection E as <-; constructor; reflexivity. Qed.
Lemma reply_keep to b n n' : reply to b n = Ret n' -> keep n n'. Proof. apply add_msg_keep. Qed.
Lemma append_entries_keep p n n' : append_entries p n = Ret n' -> keep n n'.
Proof.
  unfold append_entries. destruct (n_role n) as [| |fs hb rel]; try (intros E; injection E as <-; apply keep_refl).
  destruct (lookup p fs); [|intros E; injection E as <-; apply keep_refl]. cbv zeta.
  destruct (negb _); [intros E; injection E as <-; apply keep_refl|]. destruct (_ && _)%bool; [intros E; injection E as <-; apply keep_refl|].
  destruct (_ && _)%bool; [intros E; injection E as <-; apply keep_refl|]. intros E. apply reply_keep in E. eapply keep_trans; [|exact E]. apply role_keep.
Qed.
Lemma send_all_keep n n' : send_all n = Ret n' -> keep n n'.
Proof.
  unfold send_all. enough (H : forall l o, fold_left (fun o p => let* m := o in if beq p (n_me n) then Ret m else append_entries p m) l o = Ret n' ->
    exists m, o = Ret m /\ keep m n').
  { intros E. destruct (H _ _ E) as (m & Em & Hk). injection Em as <-. exact Hk. }
  induction l as [|p l IH]; intros o E; cbn [fold_left] in E; [exists n'; split; [exact E|apply keep_refl]|].
  destruct (IH _ E) as (m & Em & Hk). destruct o as [m0|]; cbn in Em; [|discriminate]. exists m0. split; [reflexivity|].
  destruct (beq p (n_me n)); [injection Em as <-; exact Hk|]. apply append_entries_keep in Em. eapply keep_trans; eassumption.
Qed.
Lemma mark_keep n : keep n (mark_update n).
Proof. unfold mark_update. destruct (n_role n); try apply keep_refl. apply role_keep. Qed.
Lemma relinq_keep rnd n n' : try_relinquish rnd n = Ret n' -> keep n n'.
Proof.
  unfold try_relinquish. destruct (n_role n); try (intros E; injection E as <-; apply keep_refl).
  destruct (find _ _); [|intros E; injection E as <-; apply keep_refl]. intros E. apply bind_inv in E as (n1 & E1 & E). injection E as <-.
  eapply keep_trans; [eapply reply_keep; exact E1|apply role_keep].
Qed.
Lemma election_keep rnd n n' : election_timeout rnd n = Ret n' -> keep n n'.
Proof.
  unfold election_timeout. destruct (negb _).
  { intros E. injection E as <-. destruct (n_role n); try apply keep_refl. apply role_keep. }
  assert (H : (let n1 := set_role (Candidate [n_me n] rnd) (set_voted (Some (n_me n)) (set_term (n_term n + 1) n)) in
        let* b := vote_request n1 in add_msg None (RMsg (n_group n1) (n_term n1) b) n1) = Ret n' -> keep n n').
  { cbv zeta. intros E. apply bind_inv in E as (b & _ & E). apply add_msg_keep in E. eapply keep_trans; [|exact E]. constructor; reflexivity. }
  destruct (n_role n); auto. intros E. injection E as <-. apply keep_refl.
Qed.
Lemma update_keep rnd t n : keep n (update_term rnd t n).
Proof. unfold update_term. destruct (_ <=? _); [apply keep_refl|]. constructor; reflexivity. Qed.
Lemma seen_keep from n : keep n (seen_now from n).
Proof. unfold seen_now. destruct (n_role n); try apply keep_refl. destruct (lookup _ _); [apply role_keep|apply keep_refl]. Qed.

(* --- what changes it ------------------------------------------------------------ *)
Lemma refresh_fit n A c : J n A -> c = n_commit n \/ n_commit n < c -> J (refresh_members (set_commit c n)) A.
Proof.
  intros [H1 H2 H3 H4 [H5 H6]] Hc.
  assert (Hcut : n_commit n <= c) by lia.
  assert (G : forall n', n_log n' = n_log n -> n_applied n' = n_applied n -> n_commit n' = c ->
     n_mem n' = members_after M (beyond L0 (upto c A)) -> n_unc n' = mems (c + 1) (skipn (N.to_nat c) A) -> J n' A).
  { intros n' K1 K2 K3 K4 K5. constructor; rewrite ?K1, ?K2, ?K3; auto; try lia. unfold fit. rewrite K3. auto. }
  unfold refresh_members. cbn [set_commit n_commit n_mem n_unc n_log].
  assert (Hp : pop_committed c (n_mem n) (n_unc n) = (members_after M (beyond L0 (upto c A)), mems (c + 1) (skipn (N.to_nat c) A))).
  { rewrite H6, pop_mems by lia. f_equal.
    - rewrite H5, <- after_app. f_equal. unfold beyond, upto in *.
      replace (N.to_nat (c + 1 - (n_commit n + 1))) with (N.to_nat c - N.to_nat (n_commit n))%nat by lia.
      rewrite <- skipn_firstn_comm. unfold llen in H4.
      set (a := N.to_nat (n_commit n)) in *. set (d := N.to_nat c) in *. assert (Ha : (a <= d)%nat) by lia. assert (Hb : (length L0 <= a)%nat) by lia.
      replace (firstn a A) with (firstn a (firstn d A)) by (rewrite firstn_firstn; f_equal; lia).
      set (B := firstn d A). clearbody B. rewrite <- (firstn_skipn a B) at 3. rewrite skipn_app, firstn_length.
      destruct (Nat.le_gt_cases a (length B)) as [Hl|Hl].
      + replace (length L0 - Nat.min a (length B))%nat with 0%nat by lia. reflexivity.
      + rewrite (skipn_all2 (n := a) B) by lia. now rewrite skipn_nil.
    - f_equal. rewrite <- (firstn_skipn (N.to_nat (n_commit n)) A) at 2. rewrite skipn_app, firstn_length.
      rewrite (skipn_all2 (firstn _ _)) by (rewrite firstn_length; lia). cbn [app].
      destruct (Nat.le_gt_cases (N.to_nat (n_commit n)) (length A)) as [Hl|Hl].
      + f_equal. lia.
      + rewrite (skipn_all2 A) by lia. now rewrite !skipn_nil. }
  pose proof (pop_same c (n_mem n) (n_unc n)) as [_ Hs]. rewrite Hp in *. cbn [snd] in Hs.
  assert (Hlast : last_idx (n_log n) = llen A) by (eapply st_last; eassumption). rewrite Hlast.
  assert (Hcan : rev (pop_cancelled (llen A) (rev (mems (c + 1) (skipn (N.to_nat c) A)))) = mems (c + 1) (skipn (N.to_nat c) A)).
  { destruct (N.le_gt_cases c (llen A)) as [Hl|Hl].
    - rewrite cancel_mems by lia. rewrite firstn_all2; [reflexivity|]. rewrite skipn_length. unfold llen. lia.
    - rewrite (skipn_all2 A) by (unfold llen in Hl; lia). reflexivity. }
  rewrite Hcan. destruct (Nat.eqb _ _) eqn:El.
  - apply Nat.eqb_eq in El. specialize (Hs El). injection Hs as Hs1 Hs2. apply G; auto; cbn [set_commit n_mem n_unc]; congruence.
  - destruct (hmc_keep (set_members (members_after M (beyond L0 (upto c A))) (mems (c + 1) (skipn (N.to_nat c) A)) (set_commit c n))) as [K1 K2 K3 K4 K5].
    apply G; [rewrite K1|rewrite K3|rewrite K2|rewrite K4|rewrite K5]; reflexivity.
Qed.
Lemma cancel_fit n A idx l : J n A -> 0 < idx -> idx <= llen A -> n_commit n < idx -> cancel_from idx (n_log n) = (l, L_OK) ->
  J (refresh_members (set_log l n)) (upto (idx - 1) A).
Proof.
  intros [H1 H2 H3 H4 [H5 H6]] Hi0 Hi Hc E. destruct (cancel_stored _ _ _ _ _ _ H1 Hi0 Hi ltac:(lia) E) as [_ Hst].
  assert (Hlen : llen (upto (idx - 1) A) = idx - 1) by (apply upto_len; lia).
  assert (Hlast : last_idx l = idx - 1) by (rewrite (st_last l (n_applied n) (upto (idx - 1) A)); [assumption|assumption|lia]).
  assert (G : forall n', n_log n' = l -> n_applied n' = n_applied n -> n_commit n' = n_commit n ->
     n_mem n' = n_mem n -> n_unc n' = mems (n_commit n + 1) (firstn (N.to_nat (idx - 1 + 1 - (n_commit n + 1))) (skipn (N.to_nat (n_commit n)) A)) -> J n' (upto (idx - 1) A)).
  { intros n' K1 K2 K3 K4 K5. constructor; rewrite ?K1, ?K2, ?K3; auto; try lia. unfold fit. rewrite K3, K4, K5, H5. rewrite upto_upto by lia.
    split; [reflexivity|]. f_equal. unfold upto. rewrite <- skipn_firstn_comm || rewrite firstn_skipn_comm. f_equal. f_equal. lia. }
  unfold refresh_members. cbn [set_log n_commit n_mem n_unc n_log]. rewrite Hlast.
  rewrite pop_none by (intros j x H; rewrite H6 in H; apply mems_ge in H; lia).
  rewrite H6, cancel_mems by lia. destruct (Nat.eqb _ _) eqn:El.
  - apply Nat.eqb_eq in El. apply G; auto. cbn [set_log n_unc]. rewrite H6.
    pose proof (cancel_mems (skipn (N.to_nat (n_commit n)) A) (n_commit n + 1) (idx - 1) ltac:(lia)) as X.
    rewrite <- X. symmetry. apply cancelled_same. rewrite X. exact El.
  - match goal with |- J (handle_membership_change ?z) _ => destruct (hmc_keep z) as [K1 K2 K3 K4 K5] end.
    apply G; [rewrite K1|rewrite K3|rewrite K2|rewrite K4|rewrite K5]; reflexivity.
Qed.
Lemma log_append_fit e n A n' l er : J n A -> n_commit n <= llen A -> log_append sz e n = Ret (n', (l, er)) ->
  (exists A', J n' A' /\ (er = RE_OK /\ A' = A ++ [e] \/ er <> RE_OK /\ A' = A)) /\ n_commit n' = n_commit n /\ n_applied n' = n_applied n.
Proof.
  intros HJ Hcl E. unfold log_append in E.
  assert (Hsm : sets_members e = match match e_inner e with IMember g => Some (from_proto g) | _ => None end with Some (m, M_OK) => Some m | _ => None end).
  { unfold sets_members. destruct (e_inner e); reflexivity. }
  set (mem := match e_inner e with IMember g => Some (from_proto g) | _ => None end) in *.
  assert (Hcase : (exists m x, mem = Some (m, x) /\ x <> M_OK) \/ ((exists m, mem = Some (m, M_OK)) \/ mem = None)).
  { destruct mem as [[m x]|]; [|auto]. destruct x; try (left; eexists _, _; split; [reflexivity|discriminate]); right; left; eauto. }
  destruct Hcase as [[m [x [Em Hx]]]|Hcase].
  { rewrite Em in E. destruct x; try congruence; injection E as <- _ <-; (split; [exists A; split; [assumption|right; split; [discriminate|reflexivity]]|auto]). }
  assert (E' : (let* '(l, er) := append sz e (n_applied n) (n_log n) in
      let n1 := set_log l n in
      match er with
      | L_OK =>
          let here := Loc (n_term n1) (last_idx l) (e_hash e) in
          match mem with
          | Some (m, _) => let* n2 := add_uncommitted (lc_idx here) m n1 in Ret (n2, (here, RE_OK))
          | None => Ret (n1, (here, RE_OK))
          end
      | _ => Ret (n1, (no_loc, RE_Log er))
      end) = Ret (n', (l, er))).
  { destruct Hcase as [[m ->]| ->]; exact E. }
  clear E. apply bind_inv in E' as ([l1 r1] & E & E'). destruct HJ as [H1 H2 H3 H4 [H5 H6]].
  destruct (append_stored sz e (n_log n) (n_applied n) A l1 r1 H1 H3 E) as [Hst _].
  assert (Hbad : r1 <> L_OK -> Ret (set_log l1 n, (no_loc, RE_Log r1)) = Ret (n', (l, er)) ->
    (exists A', J n' A' /\ (er = RE_OK /\ A' = A ++ [e] \/ er <> RE_OK /\ A' = A)) /\ n_commit n' = n_commit n /\ n_applied n' = n_applied n).
  { intros Hr Er. injection Er as <- _ <-. split; [|auto]. exists A. split; [|right; split; [discriminate|reflexivity]].
    constructor; auto; [|split; auto]. destruct r1; try congruence; exact Hst. }
  destruct r1; try (apply Hbad; [discriminate|exact E']). clear Hbad. cbv zeta in E'. cbn [lc_idx] in E'.
  assert (Hl1 : last_idx l1 = llen A + 1).
  { rewrite (st_last l1 (n_applied n) (A ++ [e])); [now rewrite llen_app|exact Hst|]. rewrite llen_app. lia. }
  assert (Hsk : skipn (N.to_nat (n_commit n)) (A ++ [e]) = skipn (N.to_nat (n_commit n)) A ++ [e]).
  { rewrite skipn_app. unfold llen in Hcl. replace (N.to_nat (n_commit n) - length A)%nat with 0%nat by lia. reflexivity. }
  assert (Hix : n_commit n + 1 + llen (skipn (N.to_nat (n_commit n)) A) = llen A + 1).
  { unfold llen in *. rewrite skipn_length. lia. }
  assert (G : forall n2, n_log n2 = l1 -> n_applied n2 = n_applied n -> n_commit n2 = n_commit n -> n_mem n2 = n_mem n ->
     n_unc n2 = n_unc n ++ match sets_members e with Some m => [(llen A + 1, m)] | None => [] end -> J n2 (A ++ [e])).
  { intros n2 K1 K2 K3 K4 K5. constructor; rewrite ?K1, ?K2, ?K3; auto; [rewrite llen_app; lia|]. unfold fit. rewrite K3, K4, K5, H5, H6.
    split; [now rewrite upto_app|]. rewrite Hsk, mems_app, Hix. cbn [mems]. now rewrite app_nil_r. }
  destruct Hcase as [[m Em]|Em]; rewrite Em in E', Hsm.
  - apply bind_inv in E' as (n2 & E2 & E'). injection E' as <- <- <-.
    assert (Ha : n2 = handle_membership_change (set_members (n_mem n) (n_unc n ++ [(last_idx l1, m)]) (set_log l1 n))).
    { unfold add_uncommitted in E2. cbn [set_log n_unc n_mem] in E2. destruct (n_unc n) as [|u us]; [injection E2 as <-; reflexivity|].
      destruct (_ <? _); [injection E2 as <-; reflexivity|discriminate]. }
    subst n2. match goal with |- context [handle_membership_change ?z] => destruct (hmc_keep z) as [K1 K2 K3 K4 K5] end.
    split; [|split; [rewrite K2|rewrite K3]; reflexivity]. exists (A ++ [e]). split; [|left; auto].
    apply G; [rewrite K1|rewrite K3|rewrite K2|rewrite K4|rewrite K5]; try reflexivity. cbn [set_members n_unc]. now rewrite Hsm, Hl1.
  - injection E' as <- <- <-. split; [|split; reflexivity]. exists (A ++ [e]). split; [|left; auto]. apply G; try reflexivity. cbn [set_log n_unc]. now rewrite Hsm, app_nil_r.
Qed.

(* one more entry at most *)
Definition longer (n : node) (A : list entry) (n' : node) (A' : list entry) : Prop :=
  J n' A' /\ prefix A A' /\ n_applied n' = n_applied n.
Lemma client_request_fit x n A n' l er : J n A -> n_commit n <= llen A -> client_request sz hmac x n = Ret (n', (l, er)) ->
  exists A', longer n A n' A' /\ n_commit n' = n_commit n.
Proof.
  intros HJ Hc E. unfold client_request in E.
  assert (Hno : Ret (n, (no_loc, RE_NotLeader)) = Ret (n', (l, er)) -> exists A', longer n A n' A' /\ n_commit n' = n_commit n).
  { intros X. injection X as <- _ _. exists A. split; [split; [assumption|split; [apply prefix_refl|reflexivity]]|reflexivity]. }
  destruct (n_role n) as [| |fs hb rel]; try (apply Hno; exact E). destruct rel; [apply Hno; exact E|].
  destruct (log_append_fit _ _ _ _ _ _ HJ Hc E) as [(A' & H1 & H2) [H3 H4]]. exists A'. split; [|assumption]. split; [assumption|]. split; [|assumption].
  destruct H2 as [[_ ->]|[_ ->]]; [apply prefix_app|apply prefix_refl].
Qed.
Lemma leader_fit n A n' : J n A -> n_commit n <= llen A -> maybe_become_leader sz hmac n = Ret n' -> exists A', longer n A n' A' /\ n_commit n' = n_commit n.
Proof.
  intros HJ Hc E. unfold maybe_become_leader in E.
  assert (Hno : Ret n = Ret n' -> exists A', longer n A n' A' /\ n_commit n' = n_commit n).
  { intros X. injection X as <-. exists A. split; [split; [assumption|split; [apply prefix_refl|reflexivity]]|reflexivity]. }
  destruct (n_role n); auto. destruct (_ <? _); [auto|]. cbv zeta in E. apply bind_inv in E as ([n1 [l er]] & E1 & E). injection E as <-.
  apply client_request_fit with (A := A) in E1; [|eapply keep_J; [apply role_keep|assumption]|exact Hc]. exact E1.
Qed.
Lemma advance_fit n A n' : J n A -> advance_commit n = Ret n' -> J n' A /\ n_applied n' = n_applied n.
Proof.
  intros HJ E. unfold advance_commit in E. destruct (n_role n) as [| |fs hb rel]; try (injection E as <-; auto).
  apply bind_inv in E as (np & _ & E). cbv zeta in E. apply bind_inv in E as (nc & _ & E).
  set (n1 := if n_promise n <? np then set_promise np n else n) in *.
  assert (K1 : keep n n1) by (unfold n1; destruct (_ <? _); constructor; reflexivity).
  pose proof (keep_J _ _ _ K1 HJ) as J1.
  set (n2 := if n_commit n1 <? nc then refresh_members (set_commit nc n1) else n1) in *.
  assert (J2 : J n2 A /\ n_applied n2 = n_applied n).
  { unfold n2. destruct (n_commit n1 <? nc) eqn:Ec; [|split; [assumption|apply K1]].
    split; [apply refresh_fit; [assumption|right; lia]|]. rewrite <- (kp_applied _ _ K1).
    unfold refresh_members. destruct (pop_committed _ _ _) as [m u]. destruct (Nat.eqb _ _); [reflexivity|]. now rewrite (kp_applied _ _ (hmc_keep _)). }
  injection E as <-. destruct (_ || _)%bool; [|assumption]. split; [eapply keep_J; [apply mark_keep|apply J2]|]. rewrite (kp_applied _ _ (mark_keep n2)). apply J2.
Qed.
Lemma change_state_fit ok rnd n A n' : J n A -> n_commit n <= llen A -> change_state sz hmac ok rnd n = Ret n' -> exists A', longer n A n' A'.
Proof.
  intros HJ Hc E. unfold change_state in E. apply bind_inv in E as (n1 & E1 & E). apply bind_inv in E as (n2 & E2 & E). apply bind_inv in E as (n3 & E3 & E).
  destruct (leader_fit _ _ _ HJ Hc E1) as (A' & (J1 & P1 & P2) & _). exists A'.
  assert (J2 : J n2 A' /\ n_applied n2 = n_applied n1).
  { destruct ok; [apply (advance_fit _ _ _ J1 E2)|injection E2 as <-; auto]. }
  assert (K3 : keep n2 n').
  { apply send_all_keep in E3. eapply keep_trans; [exact E3|]. destruct (n_role n3) as [| |fs hb rel]; try (injection E as <-; apply keep_refl).
    destruct rel; [eapply relinq_keep; exact E|injection E as <-; apply keep_refl]. }
  split; [eapply keep_J; [exact K3|apply J2]|]. split; [assumption|]. rewrite (kp_applied _ _ K3). destruct J2. congruence.
Qed.

(* --- entries received ------------------------------------------------------------ *)
Definition moved (n : node) (A : list entry) (n' : node) (A' : list entry) : Prop :=
  J n' A' /\ prefix (upto (n_applied n) A) A' /\ n_applied n' = n_applied n /\ n_commit n' <= llen A'.
Lemma process_fit es : forall idx p n A n' p', J n A -> n_commit n <= llen A -> p = idx - 1 -> 0 < idx -> p <= llen A ->
  process_entries sz hmac es idx p n = Ret (n', p') -> exists A', moved n A n' A' /\ p' <= llen A' /\ n_commit n' = n_commit n.
Proof.
  induction es as [|e es IH]; intros idx p n A n' p' HJ Hc Hp Hi Hpl E; cbn [process_entries] in E.
  { injection E as <- <-. exists A. split; [|auto]. split; [assumption|]. split; [apply prefix_upto|]. auto. }
  assert (Hstop : Ret (n, p) = Ret (n', p') -> exists A', moved n A n' A' /\ p' <= llen A' /\ n_commit n' = n_commit n).
  { intros X. injection X as <- <-. exists A. split; [|auto]. split; [assumption|]. split; [apply prefix_upto|]. auto. }
  cbv zeta in E. set (conflict := (negb (term_at (n_log n) idx =? 0) && negb (term_at (n_log n) idx =? e_term e))%bool) in *.
  destruct (conflict && _)%bool eqn:Eb; [auto|].
  destruct (if conflict then _ else _) as [n1|] eqn:Ecan; [|auto].
  assert (H1 : exists A1, moved n A n1 A1 /\ idx - 1 <= llen A1 /\ n_commit n1 = n_commit n).
  { destruct conflict eqn:Econ.
    - destruct (cancel_from idx (n_log n)) as [l r] eqn:Ec. destruct r; try discriminate. injection Ecan as <-.
      unfold conflict in Econ. apply andb_true_iff in Econ as [Ht _]. cbn [andb] in Eb. apply orb_false_iff in Eb as [Eb _].
      assert (Hin : idx <= llen A).
      { unfold term_at in Ht. destruct (at_idx (n_log n) idx) as [a|] eqn:Ea; [|discriminate]. apply (st_at_some _ _ _ _ _ (j_st _ _ HJ)), nth_entry_len in Ea. lia. }
      pose proof (cancel_fit n A idx l HJ Hi Hin ltac:(lia) Ec) as J1. exists (upto (idx - 1) A).
      assert (Hlen : llen (upto (idx - 1) A) = idx - 1) by (apply upto_len; lia).
      assert (Hcm : n_commit (refresh_members (set_log l n)) = n_commit n /\ n_applied (refresh_members (set_log l n)) = n_applied n).
      { unfold refresh_members. destruct (pop_committed _ _ _) as [m u]. destruct (Nat.eqb _ _); [split; reflexivity|].
        rewrite (kp_commit _ _ (hmc_keep _)), (kp_applied _ _ (hmc_keep _)). split; reflexivity. }
      destruct Hcm as [Hcm Hap]. split; [|split; [lia|assumption]]. split; [assumption|]. split; [apply upto_le; pose proof (j_ac _ _ HJ); lia|].
      split; [assumption|]. rewrite Hcm. lia.
    - injection Ecan as <-. exists A. split; [|split; [lia|reflexivity]]. split; [assumption|]. split; [apply prefix_upto|]. auto. }
  destruct H1 as (A1 & (J1 & P1 & P2 & P3) & Hl1 & Hc1).
  assert (Hmore : forall n2 A2 q, moved n1 A1 n2 A2 -> q = idx -> idx <= llen A2 -> n_commit n2 = n_commit n1 -> process_entries sz hmac es (idx + 1) q n2 = Ret (n', p') ->
    exists A', moved n A n' A' /\ p' <= llen A' /\ n_commit n' = n_commit n).
  { intros n2 A2 q (J2 & Q1 & Q2 & Q3) -> Hl2 Hc2 E2. destruct (IH (idx + 1) idx n2 A2 n' p' J2 Q3 ltac:(lia) ltac:(lia) Hl2 E2) as (A' & (J3 & R1 & R2 & R3) & R4 & R5).
    exists A'. split; [|split; [assumption|congruence]]. split; [assumption|]. split; [|split; [congruence|assumption]].
    assert (Hx : upto (n_applied n) A = upto (n_applied n) A2).
    { pose proof (j_al _ _ HJ) as Y1. pose proof (j_al _ _ J1) as Y2.
      assert (X1 : upto (n_applied n) A = upto (n_applied n) A1).
      { rewrite <- (prefix_upto_eq (n_applied n) _ _ P1) by (rewrite upto_len; lia). symmetry. apply upto_upto. lia. }
      rewrite X1. rewrite <- P2. rewrite <- (prefix_upto_eq (n_applied n1) _ _ Q1) by (rewrite upto_len; lia). symmetry. apply upto_upto. lia. }
    rewrite Hx. replace (n_applied n) with (n_applied n2) by congruence. exact R1. }
  assert (Hend : Ret (n1, p) = Ret (n', p') -> exists A', moved n A n' A' /\ p' <= llen A' /\ n_commit n' = n_commit n).
  { intros X. injection X as <- <-. exists A1. split; [|split; [lia|assumption]]. split; [assumption|]. auto. }
  destruct (idx =? last_idx (n_log n1) + 1) eqn:Ei.
  - destruct (negb (beq _ _)); [auto|]. apply bind_inv in E as ([n2 [l2 er]] & E2 & E).
    destruct (log_append_fit _ _ _ _ _ _ J1 P3 E2) as [(A2 & J2 & HA2) [C2 D2]].
    assert (Hx : moved n1 A1 n2 A2).
    { split; [assumption|]. destruct HA2 as [[_ ->]|[_ ->]].
      - split; [eapply prefix_trans; [apply prefix_upto|apply prefix_app]|]. split; [assumption|]. rewrite C2, llen_app. lia.
      - split; [apply prefix_upto|]. split; [assumption|]. rewrite C2. lia. }
    assert (Hbad : er <> RE_OK -> Ret (n2, p) = Ret (n', p') -> exists A', moved n A n' A' /\ p' <= llen A' /\ n_commit n' = n_commit n).
    { intros He X. injection X as <- <-. destruct HA2 as [[? _]|[_ ->]]; [congruence|]. exists A1. split; [|split; [lia|congruence]].
      split; [assumption|]. split; [assumption|]. split; [congruence|]. rewrite C2. assumption. }
    destruct er; try (apply Hbad; [discriminate|exact E]).
    destruct HA2 as [[_ ->]|[X _]]; [|congruence]. apply (Hmore n2 (A1 ++ [e]) idx Hx eq_refl); [|assumption|exact E].
    rewrite (st_last _ _ _ (j_st _ _ J1) (j_al _ _ J1)) in Ei. rewrite llen_app. unfold llen at 2. cbn. lia.
  - apply (Hmore n1 A1 idx); auto; [split; [assumption|split; [apply prefix_upto|auto]]|].
    rewrite (st_last _ _ _ (j_st _ _ J1) (j_al _ _ J1)) in Ei. lia.
Qed.
Lemma append_request_fit ok rnd t prev pterm commit es promise from n A n' : J n A -> n_commit n <= llen A ->
  handle_append_request sz hmac ok rnd t prev pterm commit es promise from n = Ret n' -> exists A', moved n A n' A'.
Proof.
  intros HJ Hc E. unfold handle_append_request in E. cbv zeta in E.
  assert (Hkeep : forall x, keep n x -> moved n A x A).
  { intros x K. split; [eapply keep_J; eassumption|]. split; [apply prefix_upto|]. rewrite (kp_applied _ _ K), (kp_commit _ _ K). auto. }
  destruct (n_term n <? t); [injection E as <-; exists A; apply Hkeep, keep_refl|].
  destruct (t <? n_term n); [exists A; apply Hkeep; eapply reply_keep; exact E|].
  set (n0 := set_role (Follower (Some from) rnd) n) in *. assert (K0 : keep n n0) by apply role_keep.
  set (log_ok := ((prev =? 0) || match at_idx (n_log n) prev with Some e => pterm =? e_term e | None => false end)%bool) in *.
  assert (E' : (if negb log_ok then reply from (AppResp false (n_commit n0) (last_idx (n_log n0)) (n_promise n0) (hash_at (n_log n0) (n_commit n0))) n0 else
      let* '(n1, processed) := process_entries sz hmac es (prev + 1) prev n0 in
      if (((n_commit n1 <? N.min commit processed) || (n_promise n1 <? N.min promise processed)) && negb ok)%bool then Ret n1 else
      reply from (AppResp true processed (last_idx (n_log (if n_commit (if n_promise n1 <? N.min promise processed then set_promise (N.min promise processed) n1 else n1) <? N.min commit processed then refresh_members (set_commit (N.min commit processed) (if n_promise n1 <? N.min promise processed then set_promise (N.min promise processed) n1 else n1)) else (if n_promise n1 <? N.min promise processed then set_promise (N.min promise processed) n1 else n1))))
         (N.min (n_promise (if n_commit (if n_promise n1 <? N.min promise processed then set_promise (N.min promise processed) n1 else n1) <? N.min commit processed then refresh_members (set_commit (N.min commit processed) (if n_promise n1 <? N.min promise processed then set_promise (N.min promise processed) n1 else n1)) else (if n_promise n1 <? N.min promise processed then set_promise (N.min promise processed) n1 else n1))) processed)
         (hash_at (n_log (if n_commit (if n_promise n1 <? N.min promise processed then set_promise (N.min promise processed) n1 else n1) <? N.min commit processed then refresh_members (set_commit (N.min commit processed) (if n_promise n1 <? N.min promise processed then set_promise (N.min promise processed) n1 else n1)) else (if n_promise n1 <? N.min promise processed then set_promise (N.min promise processed) n1 else n1))) processed))
        (if n_commit (if n_promise n1 <? N.min promise processed then set_promise (N.min promise processed) n1 else n1) <? N.min commit processed then refresh_members (set_commit (N.min commit processed) (if n_promise n1 <? N.min promise processed then set_promise (N.min promise processed) n1 else n1)) else (if n_promise n1 <? N.min promise processed then set_promise (N.min promise processed) n1 else n1))) = Ret n'
     \/ n' = n).
  { destruct (n_role n); [left; exact E|left; exact E|right; now injection E as <-]. }
  clear E. destruct E' as [E| ->]; [|exists A; apply Hkeep, keep_refl].
  destruct log_ok eqn:Elog; cbn [negb] in E.
  2:{ exists A. apply Hkeep. eapply keep_trans; [exact K0|]. eapply reply_keep; exact E. }
  apply bind_inv in E as ([n1 q] & E1 & E).
  assert (Hprev : prev <= llen A).
  { unfold log_ok in Elog. apply orb_true_iff in Elog as [Elog|Elog]; [lia|]. destruct (at_idx (n_log n) prev) as [a|] eqn:Ea; [|discriminate].
    apply (st_at_some _ _ _ _ _ (j_st _ _ HJ)), nth_entry_len in Ea. lia. }
  destruct (process_fit es (prev + 1) prev n0 A n1 q (keep_J _ _ _ K0 HJ) Hc ltac:(lia) ltac:(lia) Hprev E1) as (A1 & (J1 & P1 & P2 & P3) & P4 & P5).
  exists A1. assert (Hm1 : moved n A n1 A1) by (split; [assumption|auto]).
  destruct (_ && _)%bool; [injection E as <-; exact Hm1|].
  set (n2 := if n_promise n1 <? N.min promise q then set_promise (N.min promise q) n1 else n1) in *.
  assert (K2 : keep n1 n2) by (unfold n2; destruct (_ <? _); constructor; reflexivity).
  set (lc := N.min commit q) in *.
  set (n3 := if n_commit n2 <? lc then refresh_members (set_commit lc n2) else n2) in *.
  assert (H3 : J n3 A1 /\ n_applied n3 = n_applied n1 /\ n_commit n3 <= llen A1).
  { unfold n3. destruct (n_commit n2 <? lc) eqn:Elc.
    - split; [apply refresh_fit; [eapply keep_J; eassumption|right; lia]|].
      assert (Hx : n_commit (refresh_members (set_commit lc n2)) = lc /\ n_applied (refresh_members (set_commit lc n2)) = n_applied n2).
      { unfold refresh_members. destruct (pop_committed _ _ _) as [m u]. destruct (Nat.eqb _ _); [split; reflexivity|].
        rewrite (kp_commit _ _ (hmc_keep _)), (kp_applied _ _ (hmc_keep _)). split; reflexivity. }
      destruct Hx as [-> ->]. split; [apply K2|]. unfold lc. lia.
    - split; [eapply keep_J; eassumption|]. rewrite (kp_applied _ _ K2), (kp_commit _ _ K2). auto. }
  apply reply_keep in E. destruct H3 as (J3 & Q1 & Q2). split; [eapply keep_J; eassumption|]. split; [assumption|]. rewrite (kp_applied _ _ E), (kp_commit _ _ E).
  split; [rewrite Q1; exact P2|assumption].
Qed.

(* --- any call --------------------------------------------------------------------- *)
Lemma longer_moved n A n' A' : n_applied n <= llen A -> longer n A n' A' -> J n' A' /\ prefix (upto (n_applied n) A) A' /\ n_applied n' = n_applied n.
Proof. intros H (H1 & H2 & H3). split; [assumption|]. split; [|assumption]. eapply prefix_trans; [apply prefix_upto|exact H2]. Qed.
Lemma rstep_fit n A o n' a : J n A -> n_commit n <= llen A -> rstep sz hmac n o = Ret (n', a) -> J n' (regrow A (n_log n')).
Proof.
  intros HJ Hc E. pose proof (j_al _ _ HJ) as Hal.
  assert (Hfin : forall n1 A', J n1 A' -> prefix (upto (n_applied n) A) A' -> n_applied n1 = n_applied n -> J (set_out [] n1) (regrow A (n_log (set_out [] n1)))).
  { intros n1 A' J1 P1 P2. assert (HA : regrow A (n_log (set_out [] n1)) = A').
    { apply (regrow_same A A' (n_log n1) (n_applied n1)); [apply (j_st _ _ J1)|]. right. rewrite P2. auto. }
    rewrite HA. eapply keep_J; [|exact J1]. constructor; reflexivity. }
  assert (Hkeep : forall n1, keep n n1 -> J (set_out [] n1) (regrow A (n_log (set_out [] n1)))).
  { intros n1 K. apply (Hfin n1 A); [eapply keep_J; eassumption|apply prefix_upto|apply K]. }
  assert (Hcs : forall ok rnd n1 n2 A1, J n1 A1 -> n_commit n1 <= llen A1 -> prefix (upto (n_applied n) A) A1 -> n_applied n1 = n_applied n ->
    change_state sz hmac ok rnd n1 = Ret n2 -> J (set_out [] n2) (regrow A (n_log (set_out [] n2)))).
  { intros ok rnd n1 n2 A1 J1 C1 P1 P2 E1. destruct (change_state_fit _ _ _ _ _ J1 C1 E1) as (A2 & J2 & Q1 & Q2).
    apply (Hfin n2 A2); [assumption|eapply prefix_trans; eassumption|congruence]. }
  assert (Hcsk : forall ok rnd n1 n2, keep n n1 -> change_state sz hmac ok rnd n1 = Ret n2 -> J (set_out [] n2) (regrow A (n_log (set_out [] n2)))).
  { intros ok rnd n1 n2 K E1. apply (Hcs ok rnd n1 n2 A); [eapply keep_J; eassumption|rewrite (kp_commit _ _ K); assumption|apply prefix_upto|apply K|exact E1]. }
  destruct o as [ok rnd|ok1 ok2 rnd from m|id|c|ok rnd|ok rnd x|]; cbn [rstep] in E; unfold sent in E.
  - apply bind_inv in E as (n1 & E1 & E). injection E as <- _. unfold timer_tick in E1. apply bind_inv in E1 as (n2 & E2 & E1).
    apply (Hcsk ok rnd n2 n1); [|exact E1]. destruct (n_role n) as [l e|v e|fs hb rel].
    + destruct (_ <=? _)%Z; [apply election_keep in E2; eapply keep_trans; [|exact E2]; apply role_keep|injection E2 as <-; apply role_keep].
    + destruct (_ <=? _)%Z; [apply election_keep in E2; eapply keep_trans; [|exact E2]; apply role_keep|injection E2 as <-; apply role_keep].
    + destruct (_ <=? _)%Z; injection E2 as <-; apply role_keep.
  - apply bind_inv in E as (n1 & E1 & E). injection E as <- _. unfold receive in E1. apply bind_inv in E1 as (er & _ & E1).
    assert (Hno : Ret n = Ret n1 -> J (set_out [] n1) (regrow A (n_log (set_out [] n1)))) by (intros X; injection X as <-; apply Hkeep, keep_refl).
    destruct er; try (apply Hno; exact E1). clear Hno. cbv zeta in E1. apply bind_inv in E1 as (n2 & E2 & E1).
    set (nu := seen_now from (update_term rnd (m_term m) n)) in *.
    assert (Ku : keep n nu) by (eapply keep_trans; [apply update_keep|apply seen_keep]).
    destruct (m_body m) as [lidx lterm h|g|prev pterm commit es promise ph|s midx mlast mp mh| |].
    + apply (Hcsk ok2 rnd n2 n1); [|exact E1]. eapply keep_trans; [exact Ku|]. unfold handle_vote_request in E2. cbv zeta in E2.
      destruct (_ <? _); [injection E2 as <-; apply keep_refl|]. apply reply_keep in E2. eapply keep_trans; [|exact E2].
      match goal with |- keep _ (if ?b then _ else _) => destruct b end; constructor; reflexivity.
    + apply (Hcsk ok2 rnd n2 n1); [|exact E1]. eapply keep_trans; [exact Ku|]. destruct (_ <? _); injection E2 as <-; [apply keep_refl|].
      unfold handle_vote_response. destruct (negb _); [apply keep_refl|]. destruct (n_role nu); try apply keep_refl. destruct (_ && _)%bool; [apply role_keep|apply keep_refl].
    + destruct (append_request_fit _ _ _ _ _ _ _ _ _ _ A _ (keep_J _ _ _ Ku HJ) ltac:(rewrite (kp_commit _ _ Ku); assumption) E2) as (A2 & J2 & P1 & P2 & P3).
      rewrite (kp_applied _ _ Ku) in P1, P2. exact (Hcs ok2 rnd n2 n1 A2 J2 P3 P1 P2 E1).
    + apply (Hcsk ok2 rnd n2 n1); [|exact E1]. eapply keep_trans; [exact Ku|]. destruct (_ <? _); [injection E2 as <-; apply keep_refl|].
      unfold handle_append_response in E2. destruct (negb _); [injection E2 as <-; apply keep_refl|]. destruct (n_role nu) as [| |fs hb rel]; try (injection E2 as <-; apply keep_refl).
      destruct (lookup from fs); [|injection E2 as <-; apply keep_refl]. destruct s.
      * cbv zeta in E2. destruct (match at_idx _ _ with Some e => _ | None => _ end); [injection E2 as <-; apply role_keep|discriminate].
      * injection E2 as <-. apply role_keep.
    + apply (Hcsk ok2 rnd n2 n1); [|exact E1]. eapply keep_trans; [exact Ku|]. destruct (_ <? _); [injection E2 as <-; apply keep_refl|]. eapply election_keep; exact E2.
    + apply (Hcsk ok2 rnd n2 n1); [|exact E1]. injection E2 as <-. exact Ku.
  - apply bind_inv in E as (n1 & E1 & E). injection E as <- _. apply Hkeep. unfold reset_peer in E1. destruct (negb _); [injection E1 as <-; apply keep_refl|].
    destruct (n_role n) as [| |fs hb rel]; [injection E1 as <-; apply keep_refl| |].
    + apply bind_inv in E1 as (b & _ & E1). eapply reply_keep; exact E1.
    + destruct (lookup id fs); injection E1 as <-; [apply role_keep|apply keep_refl].
  - injection E as <- _. apply Hkeep. constructor; reflexivity.
  - apply bind_inv in E as (n1 & E1 & E). injection E as <- _. unfold relinquish in E1.
    destruct (n_role n) as [| |fs hb rel]; try (injection E1 as <-; apply Hkeep, keep_refl). destruct rel; [injection E1 as <-; apply Hkeep, keep_refl|].
    apply bind_inv in E1 as ([n2 [l er]] & E2 & E1). destruct (client_request_fit _ _ _ _ _ _ HJ Hc E2) as (A2 & (J2 & P1 & P2) & P3).
    destruct (n_role n2) as [| |fs2 hb2 rel2]; try discriminate. apply (Hcs ok rnd _ n1 A2) in E1; auto.
    + eapply keep_J; [apply role_keep|exact J2].
    + cbn [set_role n_commit]. rewrite P3. apply prefix_len in P1. unfold llen in *. lia.
    + eapply prefix_trans; [apply prefix_upto|exact P1].
  - apply bind_inv in E as ([n1 [l er]] & E1 & E). injection E as <- _. unfold log_request in E1. cbv zeta in E1.
    assert (Hno : forall r : rerr, Ret (n, (no_loc, r)) = Ret (n1, (l, er)) -> J (set_out [] n1) (regrow A (n_log (set_out [] n1)))) by (intros r X; injection X as <- _ _; apply Hkeep, keep_refl).
    destruct (match x with IMember g => _ | _ => RE_OK end); try (eapply Hno; exact E1).
    apply bind_inv in E1 as ([n2 [l2 er2]] & E2 & E1). apply bind_inv in E1 as (n3 & E3 & E1). injection E1 as <- _ _.
    destruct (client_request_fit _ _ _ _ _ _ HJ Hc E2) as (A2 & (J2 & P1 & P2) & P3). apply (Hcs ok rnd n2 n3 A2); auto.
    + rewrite P3. apply prefix_len in P1. unfold llen in *. lia.
    + eapply prefix_trans; [apply prefix_upto|exact P1].
  - apply bind_inv in E as ([n1 t] & E1 & E). injection E as <- _. unfold take_committed in E1.
    destruct (_ <=? _) eqn:Ele; [injection E1 as <- _; apply Hkeep, keep_refl|]. cbv zeta in E1.
    destruct (at_idx _ _) as [e|] eqn:Ea; [|discriminate]. injection E1 as <- _. cbn [set_out set_applied n_log].
    rewrite (regrow_same A A (n_log n) (n_applied n) (j_st _ _ HJ) (or_introl eq_refl)).
    apply (st_at_some _ _ _ _ _ (j_st _ _ HJ)), nth_entry_len in Ea. destruct HJ as [H1 H2 H3 H4 H5].
    constructor; cbn [set_out set_applied n_log n_applied n_commit]; try lia; [|exact H5]. eapply st_mono; [exact H1|lia].
Qed.

(* --- the start --------------------------------------------------------------------- *)
Lemma new_fit group me log cfg sm ok rnd n d : l_entries log = skipn d L0 -> l_oldest log = 1 + N.of_nat d -> (d = 0%nat \/ (d < length L0)%nat) ->
  new_node sz hmac group me M log cfg true sm ok rnd = Ret n -> J n (regrow L0 (n_log n)).
Proof.
  intros He Hol Hd E. unfold new_node in E. set (i := last_idx log) in E. set (n0 := Node group me M [] cfg i 0 None (Follower None rnd) log i i sm []) in E.
  assert (Hst : stored log (llen L0) L0).
  { exists d. split; [assumption|]. split; [assumption|]. unfold llen. destruct Hd as [->|Hd]; [split; [lia|now left]|split; [lia|right; lia]]. }
  assert (Hi : i = llen L0) by (apply (st_last log (llen L0)); [assumption|lia]).
  assert (J0 : J n0 L0).
  { constructor; cbn [n0 n_log n_applied n_commit]; rewrite ?Hi; auto; try lia. unfold fit; cbn [n0 n_commit n_mem n_unc]. rewrite Hi. unfold beyond.
    rewrite upto_all by lia. unfold llen. rewrite Nat2N.id, skipn_all. split; reflexivity. }
  assert (Hfin : forall n1 A', J n1 A' -> prefix L0 A' -> n_applied n1 = llen L0 -> J n1 (regrow L0 (n_log n1))).
  { intros n1 A' J1 P1 P2. rewrite (regrow_same L0 A' (n_log n1) (n_applied n1)); [assumption|apply (j_st _ _ J1)|]. right. rewrite P2.
    split; [lia|]. rewrite upto_all by lia. assumption. }
  destruct (_ && _)%bool.
  - apply bind_inv in E as (n1 & E1 & E). apply bind_inv in E as (n2 & E2 & E). assert (n2 = n) as <- by (destruct (n_out n2); [now injection E|discriminate]).
    apply election_keep in E1. destruct (change_state_fit _ _ _ _ _ (keep_J _ _ _ E1 J0) ltac:(rewrite (kp_commit _ _ E1); cbn; lia) E2) as (A' & J2 & P1 & P2).
    apply (Hfin n2 A' J2 P1). rewrite P2, (kp_applied _ _ E1). cbn. assumption.
  - injection E as <-. apply (Hfin n0 L0 J0 (prefix_refl _)). cbn. assumption.
Qed.
End Mem.

Section Net_.
Variable sz : sizes.
Variable hmac : bytes -> bytes -> bytes.
Variable M : members.
Variable sm : N.
Variable L0 : list entry.
Definition fits (s : net) : Prop := forall k n A, In (k, (n, A)) (w_past s) -> J M L0 n A.
Lemma act_fits s k o : fits s -> (forall n A, lookup k (w_now s) = Some (n, A) -> In (k, (n, A)) (w_past s) /\ n_commit n <= llen A) -> fits (act sz hmac k o s).
Proof.
  intros H Hn. unfold act. destruct (lookup k (w_now s)) as [[n A]|] eqn:El; [|assumption]. destruct (rstep sz hmac n o) as [[n' a]|] eqn:E; [|assumption].
  intros k1 n1 A1 Hin. cbn [w_past] in Hin. apply in_app_or in Hin as [Hin|[Hin|[]]]; [eapply H; exact Hin|]. injection Hin as <- <- <-.
  destruct (Hn n A eq_refl) as [H1 H2]. eapply rstep_fit; [eapply H; exact H1|assumption|exact E].
Qed.
Lemma step_fits s ev : fits s -> (forall k n A, lookup k (w_now s) = Some (n, A) -> In (k, (n, A)) (w_past s) /\ n_commit n <= llen A) -> fits (net_step sz hmac s ev).
Proof.
  intros H Hn. destruct ev as [k o|k j ok1 ok2 rnd|k j]; cbn [net_step].
  - destruct o; auto; apply act_fits; auto.
  - destruct (nth_error _ _) as [[from [to m]]|]; [|assumption]. destruct (match to with Some p => _ | None => _ end); [|assumption]. apply act_fits; auto.
  - destruct (nth_error _ _) as [[k' x]|]; [|assumption]. destruct (beq _ _); assumption.
Qed.
Lemma start_fits group xs s : Forall (fun x => s_drop x = 0%nat \/ (s_drop x < length L0)%nat) xs -> start sz hmac group M sm L0 xs = Ret s -> fits s.
Proof.
  intros Hd E. unfold start in E. apply bind_inv in E as (p & E1 & E). injection E as <-. cbn [w_past]. unfold fits; cbn [w_past].
  revert p E1. induction Hd as [|x xs Hx Hd IH]; intros p E1; cbn [seated] in E1; [injection E1 as <-; intros k n A []|].
  apply bind_inv in E1 as (n0 & E0 & E1). apply bind_inv in E1 as (r & Er & E1). injection E1 as <-.
  intros k n A [Hin|Hin]; [|eapply IH; eassumption]. injection Hin as _ <- <-. unfold seat_node in E0.
  eapply new_fit with (d := s_drop x); [| |exact Hx|exact E0]; reflexivity.
Qed.
Lemma reached_fits evs s : net_reached_from sz hmac M sm L0 evs s -> changes_overlap M sm evs -> no_clash s -> 
  fits s /\ forall k n A, was s k n A -> n_commit n <= llen A.
Proof.
  intros (group & xs & s0 & (H1 & H2 & H3 & H4 & H5 & H6 & H7) & E & ->) (F & HF & Hask & Hov) Hun.
  destruct (moved_parts M sm F evs H1 HF Hask Hov) as (HM & Hw & Ho & Hx & Hn & Hff).
  assert (G0 : ginv hmac sm L0 (wfF F) (within F) s0) by (eapply (start_inv sz hmac M); eassumption).
  assert (Hcl : forall s, ginv hmac sm L0 (wfF F) (within F) s -> forall k n A, In (k, (n, A)) (w_past s) -> n_commit n <= llen A).
  { intros s Hs k n A Hin. destruct (gi_past _ _ _ _ _ s Hs k n A Hin) as [HR _]. now destruct (ri_cm _ _ _ _ _ _ _ _ _ _ _ HR). }
  assert (F0 : fits s0) by (eapply start_fits; eassumption). clear E H1 H2 H3 H4 H5 H6 H7 Hask.
  revert s0 G0 F0 Hun. induction evs as [|ev evs IH]; intros s0 G0 F0 Hun; cbn [net_run fold_left] in *.
  - split; [assumption|]. intros k n A. apply (Hcl s0 G0).
  - inversion Hff as [|? ? Hf1 Hf2]; subst. apply IH; auto.
    + eapply (step_inv sz hmac M); eauto. intros k1 n1 A1 k2 n2 A2 H3 H4.
      assert (Hi : incl (w_past s0) (w_past (net_run sz hmac (net_step sz hmac s0 ev) evs))).
      { eapply incl_tran; [apply (step_past sz hmac s0 ev)|apply run_past]. }
      apply (Hun k1 n1 A1 k2 n2 A2); apply Hi; assumption.
    + apply step_fits; [assumption|]. intros k n A Hl. pose proof (gi_now _ _ _ _ _ _ G0 k n A Hl) as Hin. split; [assumption|]. eapply Hcl; eassumption.
Qed.
End Net_.
