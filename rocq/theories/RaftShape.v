(* Where the entries of a replica's log come from, and when a replica leads: proofs
   about one call of a replica. *)
From Verif Require Import RaftLog Raft RaftSpec RaftChain RaftLogProofs RaftNode UtilProofs.

(* the index after the last *)
Definition nxt (l : rlog) : N := l_oldest l + llen (l_entries l).
Definition cand (n : node) : bool := match n_role n with Candidate _ _ => true | _ => false end.
(* the front may go; entries of term T are added *)
Definition lgrow (T : N) (l l' : rlog) : Prop :=
  nxt l <= nxt l' /\
  forall i e, at_idx l' i = Some e -> (i < nxt l /\ at_idx l i = Some e) \/ (nxt l <= i /\ e_term e = T).
Lemma at_idx_lt l i e : at_idx l i = Some e -> l_oldest l <= i /\ i < nxt l.
Proof.
  unfold at_idx, nxt, llen. destruct (i <? l_oldest l) eqn:E; [discriminate|]. intros H.
  assert (Hl : (N.to_nat (i - l_oldest l) < length (l_entries l))%nat) by (apply nth_error_Some; congruence). lia.
Qed.
Lemma lgrow_refl T l : lgrow T l l.
Proof. split; [lia|]. intros i e H. left. split; [apply (at_idx_lt l i e H)|assumption]. Qed.
Lemma lgrow_trans T l l1 l2 : lgrow T l l1 -> lgrow T l1 l2 -> lgrow T l l2.
Proof.
  intros [H1 H2] [H3 H4]. split; [lia|]. intros i e H. destruct (H4 i e H) as [[H5 H6]|[H5 H6]]; [auto|]. right. split; [lia|assumption].
Qed.

Section Shape.
Variable sz : sizes.
Variable hmac : bytes -> bytes -> bytes.

Lemma make_room_log need t l es old b ok :
  make_room sz need t (l_max l) (l_entries l) (l_oldest l) (l_bytes l) = Ret (ok, (es, old, b)) ->
  exists d, es = skipn d (l_entries l) /\ old = l_oldest l + N.of_nat d /\ (d <= length (l_entries l))%nat /\ (d = 0%nat \/ old <= t).
Proof. intros E. destruct (make_room_shape _ _ _ _ _ _ _ _ _ _ _ E) as (d & -> & -> & H1 & H2). exists d. auto. Qed.
Lemma append_lgrow e t l l' r : append sz e t l = Ret (l', r) ->
  lgrow (e_term e) l l' /\
  (forall i x, at_idx l' i = Some x -> at_idx l i = Some x \/ (i = nxt l /\ x = e)) /\
  (r = L_OK -> nxt l' = nxt l + 1) /\ (r <> L_OK -> nxt l' = nxt l) /\
  (l_oldest l' = l_oldest l \/ l_oldest l' <= t).
Proof.
  intros E. unfold append in E.
  destruct (e_term e =? 0); [injection E as <- <-; split; [apply lgrow_refl|]; split; [auto|]; split; [discriminate|auto]|].
  destruct (negb _); [injection E as <- <-; split; [apply lgrow_refl|]; split; [auto|]; split; [discriminate|auto]|].
  apply bind_inv in E as ([ok [[es old] b]] & E1 & E). apply make_room_log in E1 as (d & -> & -> & Hd & Ht).
  assert (Hsk : forall b0 m0 i x, at_idx (RLog (skipn d (l_entries l)) (l_oldest l + N.of_nat d) b0 m0) i = Some x -> at_idx l i = Some x).
  { intros b0 m0 i x. unfold at_idx; cbn [l_entries l_oldest]. destruct (i <? l_oldest l + N.of_nat d) eqn:E1; [discriminate|].
    destruct (i <? l_oldest l) eqn:E2; [lia|]. rewrite nth_error_skipn. intros <-. f_equal. lia. }
  assert (Hn0 : forall b0 m0, nxt (RLog (skipn d (l_entries l)) (l_oldest l + N.of_nat d) b0 m0) = nxt l).
  { intros b0 m0. unfold nxt, llen; cbn [l_entries l_oldest]. rewrite skipn_length. lia. }
  assert (Hold : l_oldest l + N.of_nat d = l_oldest l \/ l_oldest l + N.of_nat d <= t) by (destruct Ht as [->|Ht]; [left; lia|auto]).
  assert (Hbad : forall b0 r0, r0 <> L_OK -> (RLog (skipn d (l_entries l)) (l_oldest l + N.of_nat d) b0 (l_max l), r0) = (l', r) ->
    lgrow (e_term e) l l' /\
    (forall i x, at_idx l' i = Some x -> at_idx l i = Some x \/ (i = nxt l /\ x = e)) /\
    (r = L_OK -> nxt l' = nxt l + 1) /\ (r <> L_OK -> nxt l' = nxt l) /\ (l_oldest l' = l_oldest l \/ l_oldest l' <= t)).
  { intros b0 r0 Hr E0. injection E0 as <- <-. split.
    - split; [rewrite Hn0; lia|]. intros i x Hx. left. apply Hsk in Hx. split; [apply (at_idx_lt l i x Hx)|assumption].
    - split; [intros i x Hx; left; exact (Hsk _ _ i x Hx)|]. split; [contradiction|]. split; [intros _; apply Hn0|exact Hold]. }
  destruct ok; cbn [negb] in E; [|injection E as E2 E3; apply (Hbad b L_OutOfSpace); [discriminate|congruence]].
  destruct (INT_MAX <? byte_size e); [injection E as E2 E3; apply (Hbad b L_EntryTooLarge); [discriminate|congruence]|].
  injection E as <- <-.
  assert (Hat : forall i x, at_idx (RLog (skipn d (l_entries l) ++ [e]) (l_oldest l + N.of_nat d) (b + mem_size sz e) (l_max l)) i = Some x ->
    at_idx l i = Some x \/ (i = nxt l /\ x = e)).
  { intros i x. unfold at_idx at 1; cbn [l_entries l_oldest]. destruct (i <? l_oldest l + N.of_nat d) eqn:E1; [discriminate|].
    intros Hx. destruct (Nat.lt_ge_cases (N.to_nat (i - (l_oldest l + N.of_nat d))) (length (skipn d (l_entries l)))) as [Hl|Hl].
    - rewrite nth_error_app1 in Hx by assumption. left. apply (Hsk 0 0 i x). unfold at_idx; cbn [l_entries l_oldest]. now rewrite E1.
    - rewrite nth_error_app2 in Hx by assumption. right. rewrite skipn_length in *.
      destruct (N.to_nat (i - (l_oldest l + N.of_nat d)) - (length (l_entries l) - d))%nat as [|k] eqn:Ek; [|destruct k; discriminate].
      injection Hx as <-. split; [|reflexivity]. unfold nxt, llen. lia. }
  assert (Hnx : nxt (RLog (skipn d (l_entries l) ++ [e]) (l_oldest l + N.of_nat d) (b + mem_size sz e) (l_max l)) = nxt l + 1).
  { unfold nxt, llen; cbn [l_entries l_oldest]. rewrite app_length, skipn_length. cbn [length]. lia. }
  split; [split; [rewrite Hnx; lia|]|].
  - intros i x Hx. destruct (Hat i x Hx) as [H|[-> ->]]; [left; split; [apply (at_idx_lt l i x H)|assumption]|right; split; [lia|reflexivity]].
  - split; [exact Hat|]. split; [auto|]. split; [congruence|exact Hold].
Qed.

(* --- calls that leave the log alone ------------------------------------------ *)
Inductive kind_of := KF | KC | KL (rel : bool).
Definition kind (n : node) : kind_of := match n_role n with Follower _ _ => KF | Candidate _ _ => KC | Leader _ _ rel => KL rel end.
Record still (n n' : node) : Prop := MkStill { sl_kind : kind n' = kind n; sl_term : n_term n' = n_term n; sl_log : n_log n' = n_log n;
  sl_applied : n_applied n' = n_applied n; sl_commit : n_commit n <= n_commit n' }.
Lemma still_refl n : still n n. Proof. constructor; auto; lia. Qed.
Lemma still_trans n n1 n2 : still n n1 -> still n1 n2 -> still n n2.
Proof. intros [] []; constructor; try congruence; lia. Qed.
Lemma hmc_still n : still n (handle_membership_change n).
Proof. unfold handle_membership_change. destruct (n_role n) eqn:Er; constructor; auto; try lia; try (unfold kind; cbn; now rewrite Er); cbn; lia. Qed.
Lemma still_members n m u : still n (set_members m u n). Proof. constructor; auto; cbn; lia. Qed.
Lemma refresh_still n : still n (refresh_members n).
Proof.
  unfold refresh_members. destruct (pop_committed _ _ _) as [m u]. destruct (Nat.eqb _ _); [apply still_refl|].
  eapply still_trans; [apply still_members|apply hmc_still].
Qed.
Lemma add_msg_still to m n n' : add_msg to m n = Ret n' -> still n n'.
Proof. intros E. destruct (add_msg_cases _ _ _ _ E) as [->| ->]; [apply still_refl|constructor; auto; cbn; lia]. Qed.
Lemma reply_still to b n n' : reply to b n = Ret n' -> still n n'.
Proof. apply add_msg_still. Qed.
Lemma still_role n fs hb rel fs' hb' : n_role n = Leader fs hb rel -> still n (set_role (Leader fs' hb' rel) n).
Proof. intros E. constructor; auto; try (cbn; lia). unfold kind; cbn. now rewrite E. Qed.
Lemma append_entries_still peer n n' : append_entries peer n = Ret n' -> still n n'.
Proof.
  unfold append_entries. destruct (n_role n) as [| |fs hb rel] eqn:Er; try (intros E; injection E as <-; apply still_refl).
  destruct (lookup peer fs) as [f|]; [|intros E; injection E as <-; apply still_refl]. cbv zeta.
  repeat match goal with |- (if ?b then _ else _) = _ -> _ => destruct b; [intros E; injection E as <-; apply still_refl|] end.
  intros E. eapply still_trans; [|exact (reply_still _ _ _ _ E)]. eapply still_role; eassumption.
Qed.
Lemma send_all_still n n' : send_all n = Ret n' -> still n n'.
Proof.
  unfold send_all. generalize (n_me n) as me. intros me. revert n'. induction (m_all (mship n)) as [|p ps IH] using rev_ind; intros n' E.
  - injection E as <-. apply still_refl.
  - rewrite fold_left_app in E. cbn [fold_left] in E. apply bind_inv in E as (m & E1 & E2). eapply still_trans; [exact (IH m E1)|].
    destruct (beq p me); [injection E2 as <-; apply still_refl|exact (append_entries_still _ _ _ E2)].
Qed.
Lemma mark_still n : still n (mark_update n).
Proof. unfold mark_update. destruct (n_role n) eqn:E; try apply still_refl. eapply still_role; eassumption. Qed.
Lemma advance_still n n' : advance_commit n = Ret n' -> still n n'.
Proof.
  unfold advance_commit. destruct (n_role n) as [| |fs hb rel] eqn:Er; try (intros E; injection E as <-; apply still_refl).
  intros E. apply bind_inv in E as (p & _ & E). cbv zeta in E. apply bind_inv in E as (c & _ & E). injection E as <-.
  set (n1 := if n_promise n <? p then set_promise p n else n).
  assert (H1 : still n n1) by (unfold n1; destruct (_ <? _); constructor; auto; cbn; lia).
  set (n2 := if n_commit n1 <? c then refresh_members (set_commit c n1) else n1).
  assert (H2 : still n1 n2).
  { unfold n2. destruct (n_commit n1 <? c) eqn:Ec; [|apply still_refl]. eapply still_trans; [|apply refresh_still]. constructor; auto; cbn; lia. }
  destruct (_ || _)%bool; [eapply still_trans; [|apply mark_still]|]; eapply still_trans; eassumption.
Qed.
Lemma seen_now_still from n : still n (seen_now from n).
Proof.
  unfold seen_now. destruct (n_role n) as [| |fs hb rel] eqn:E; try apply still_refl. destruct (lookup from fs); [|apply still_refl].
  eapply still_role; eassumption.
Qed.
Lemma leader_kind n : is_leader n = true <-> exists rel, kind n = KL rel.
Proof. unfold is_leader, kind. destruct (n_role n); split; intros H; try discriminate; try (destruct H; discriminate); eauto. Qed.
Lemma cand_kind n : cand n = true <-> kind n = KC.
Proof. unfold cand, kind. destruct (n_role n); split; intros H; congruence. Qed.
Lemma still_leader n n' : still n n' -> is_leader n' = is_leader n.
Proof. intros [H _ _ _ _]. unfold kind, is_leader in *. destruct (n_role n), (n_role n'); congruence. Qed.
Lemma still_cand n n' : still n n' -> cand n' = cand n.
Proof. intros [H _ _ _ _]. unfold kind, cand in *. destruct (n_role n), (n_role n'); congruence. Qed.

(* --- appending ----------------------------------------------------------------- *)
Lemma add_uncommitted_still idx m n n' : add_uncommitted idx m n = Ret n' -> still n n'.
Proof.
  unfold add_uncommitted. destruct (n_unc n) as [|u us].
  - intros E; injection E as <-. eapply still_trans; [apply still_members|apply hmc_still].
  - destruct (_ <? idx); [|discriminate]. intros E; injection E as <-. eapply still_trans; [apply still_members|apply hmc_still].
Qed.
Lemma log_append_shape e n n' l er : log_append sz e n = Ret (n', (l, er)) ->
  kind n' = kind n /\ n_term n' = n_term n /\ n_applied n' = n_applied n /\ n_commit n <= n_commit n' /\
  lgrow (e_term e) (n_log n) (n_log n') /\
  (forall i x, at_idx (n_log n') i = Some x -> at_idx (n_log n) i = Some x \/ (i = nxt (n_log n) /\ x = e)) /\
  (er = RE_OK -> nxt (n_log n') = nxt (n_log n) + 1) /\ (er <> RE_OK -> nxt (n_log n') = nxt (n_log n)) /\
  (l_oldest (n_log n') = l_oldest (n_log n) \/ l_oldest (n_log n') <= n_applied n).
Proof.
  unfold log_append. cbv zeta.
  assert (Hno : forall er0, er0 <> RE_OK -> Ret (n, (no_loc, er0)) = Ret (n', (l, er)) ->
    kind n' = kind n /\ n_term n' = n_term n /\ n_applied n' = n_applied n /\ n_commit n <= n_commit n' /\
    lgrow (e_term e) (n_log n) (n_log n') /\
    (forall i x, at_idx (n_log n') i = Some x -> at_idx (n_log n) i = Some x \/ (i = nxt (n_log n) /\ x = e)) /\
    (er = RE_OK -> nxt (n_log n') = nxt (n_log n) + 1) /\ (er <> RE_OK -> nxt (n_log n') = nxt (n_log n)) /\
    (l_oldest (n_log n') = l_oldest (n_log n) \/ l_oldest (n_log n') <= n_applied n)).
  { intros er0 Hne E. injection E as <- _ <-. do 3 (split; [reflexivity|]). split; [lia|]. split; [apply lgrow_refl|]. split; [auto|].
    split; [congruence|]. split; auto. }
  assert (Hyes : forall mm, (let* '(l0, er0) := append sz e (n_applied n) (n_log n) in
      match er0 with
      | L_OK => match mm with
                | Some m => let* n2 := add_uncommitted (last_idx l0) m (set_log l0 n) in Ret (n2, (Loc (n_term n) (last_idx l0) (e_hash e), RE_OK))
                | None => Ret (set_log l0 n, (Loc (n_term n) (last_idx l0) (e_hash e), RE_OK))
                end
      | _ => Ret (set_log l0 n, (no_loc, RE_Log er0))
      end) = Ret (n', (l, er)) ->
    kind n' = kind n /\ n_term n' = n_term n /\ n_applied n' = n_applied n /\ n_commit n <= n_commit n' /\
    lgrow (e_term e) (n_log n) (n_log n') /\
    (forall i x, at_idx (n_log n') i = Some x -> at_idx (n_log n) i = Some x \/ (i = nxt (n_log n) /\ x = e)) /\
    (er = RE_OK -> nxt (n_log n') = nxt (n_log n) + 1) /\ (er <> RE_OK -> nxt (n_log n') = nxt (n_log n)) /\
    (l_oldest (n_log n') = l_oldest (n_log n) \/ l_oldest (n_log n') <= n_applied n)).
  { intros mm E. apply bind_inv in E as ([l0 er0] & E1 & E). destruct (append_lgrow _ _ _ _ _ E1) as (H1 & H2 & H3 & H4 & H5).
    assert (Hs : exists n1, n_log n1 = l0 /\ kind n1 = kind n /\ n_term n1 = n_term n /\ n_applied n1 = n_applied n /\ n_commit n <= n_commit n1 /\
      still n1 n' /\ (er = RE_OK <-> er0 = L_OK)).
    { exists (set_log l0 n). do 4 (split; [reflexivity|]). split; [cbn; lia|].
      destruct er0; try (injection E as <- _ <-; split; [apply still_refl|split; [discriminate|discriminate]]).
      destruct mm as [m|].
      - apply bind_inv in E as (n2 & E2 & E). injection E as <- _ <-. split; [exact (add_uncommitted_still _ _ _ _ E2)|split; auto].
      - injection E as <- _ <-. split; [apply still_refl|split; auto]. }
    destruct Hs as (n1 & X1 & X2 & X3 & X4 & X5 & [Y1 Y2 Y3 Y4 Y5] & X6). rewrite Y3, X1. do 3 (split; [congruence|]). split; [lia|]. split; [assumption|].
    split; [assumption|]. split; [intros X; apply H3, X6, X|]. split; [intros X; apply H4; intros Z; apply X, X6, Z|assumption]. }
  destruct (e_inner e); try apply (Hyes None).
  destruct (from_proto _) as [m er1]. destruct er1; try (apply Hno; discriminate). apply (Hyes (Some m)).
Qed.
Lemma client_request_shape x n n' l er : client_request sz hmac x n = Ret (n', (l, er)) ->
  kind n' = kind n /\ n_term n' = n_term n /\ n_applied n' = n_applied n /\ n_commit n <= n_commit n' /\ lgrow (n_term n) (n_log n) (n_log n') /\
  (is_leader n = false -> n' = n).
Proof.
  unfold client_request. assert (Hno : Ret (n, (no_loc, RE_NotLeader)) = Ret (n', (l, er)) -> 
    kind n' = kind n /\ n_term n' = n_term n /\ n_applied n' = n_applied n /\ n_commit n <= n_commit n' /\ lgrow (n_term n) (n_log n) (n_log n') /\
    (is_leader n = false -> n' = n)).
  { intros E. injection E as <- _ _. do 3 (split; [reflexivity|]). split; [lia|]. split; [apply lgrow_refl|auto]. }
  destruct (n_role n) as [| |fs hb rel] eqn:Er; try exact Hno. destruct rel; [exact Hno|]. intros E.
  apply log_append_shape in E as (H1 & H2 & H3 & H4 & H5 & _). do 5 (split; [assumption|]). unfold is_leader. rewrite Er. discriminate.
Qed.

(* --- the end of a call ---------------------------------------------------------- *)
(* in one term: entries are added by a leader, or by one that now leads *)
Record grew (n n' : node) : Prop := MkGrew {
  gw_term : n_term n' = n_term n;
  gw_log : lgrow (n_term n) (n_log n) (n_log n');
  gw_who : is_leader n = true \/ is_leader n' = true \/ n_log n' = n_log n;
  gw_lead : is_leader n' = true -> is_leader n = true \/ cand n = true;
  gw_cand : cand n' = true -> cand n = true
}.
Lemma change_state_shape ok rnd n n' : change_state sz hmac ok rnd n = Ret n' -> grew n n'.
Proof.
  intros E. unfold change_state in E. apply bind_inv in E as (n1 & E1 & E). apply bind_inv in E as (n2 & E2 & E). apply bind_inv in E as (n3 & E3 & E).
  assert (H3 : still n1 n3).
  { eapply still_trans; [|exact (send_all_still _ _ E3)]. destruct ok; [exact (advance_still _ _ E2)|injection E2 as <-; apply still_refl]. }
  assert (H4 : n_term n' = n_term n3 /\ n_log n' = n_log n3 /\ (kind n' = kind n3 \/ (kind n3 = KL true /\ kind n' = KF))).
  { destruct (n_role n3) as [| |fs hb rel] eqn:Er; try (injection E as <-; auto). destruct rel; [|injection E as <-; auto].
    unfold try_relinquish in E. rewrite Er in E. destruct (find _ _) as [p|]; [|injection E as <-; auto].
    apply bind_inv in E as (n4 & E4 & E). injection E as <-. apply reply_still in E4 as [K1 K2 K3 _ _]. cbn [set_role n_term n_log].
    split; [assumption|]. split; [assumption|]. right. unfold kind at 1. rewrite Er. auto. }
  destruct H4 as (T4 & L4 & K4). destruct H3 as [K3 T3 L3 _ _].
  unfold maybe_become_leader in E1. destruct (n_role n) as [l e|votes e|fs hb rel] eqn:Er.
  - injection E1 as <-. assert (Hk : kind n = KF) by (unfold kind; now rewrite Er).
    assert (Hk' : kind n' = KF) by (destruct K4 as [K4|[K4 K5]]; congruence).
    constructor.
    + congruence.
    + rewrite L4, L3. apply lgrow_refl.
    + right; right; congruence.
    + intros Hl. apply leader_kind in Hl as [r Hl]. congruence.
    + intros Hl. apply cand_kind in Hl. congruence.
  - assert (Hk : kind n = KC) by (unfold kind; now rewrite Er). assert (Hc : cand n = true) by (now apply cand_kind).
    destruct (psize votes <? quorum n).
    + injection E1 as <-. assert (Hk' : kind n' = KC) by (destruct K4 as [K4|[K4 K5]]; congruence).
      constructor.
      * congruence.
      * rewrite L4, L3. apply lgrow_refl.
      * right; right; congruence.
      * intros _. now right.
      * auto.
    + cbv zeta in E1. apply bind_inv in E1 as ([n1' [l er]] & E1 & E5). injection E5 as <-.
      apply client_request_shape in E1 as (X1 & X2 & _ & _ & X3 & _). cbn [set_role n_term n_log] in X2, X3. unfold kind at 2 in X1. cbn [set_role n_role] in X1.
      assert (Hk' : kind n' = KL false) by (destruct K4 as [K4|[K4 K5]]; congruence).
      constructor.
      * congruence.
      * rewrite L4, L3. exact X3.
      * right; left. apply leader_kind. eauto.
      * now right.
      * auto.
  - injection E1 as <-. assert (Hk : kind n = KL rel) by (unfold kind; now rewrite Er).
    assert (Hl : is_leader n = true) by (apply leader_kind; eauto).
    constructor.
    + congruence.
    + rewrite L4, L3. apply lgrow_refl.
    + now left.
    + now left.
    + intros Hl'. apply cand_kind in Hl'. destruct K4 as [K4|[K4 K5]]; congruence.
Qed.
Lemma still_grew n n1 n' : still n n1 -> grew n1 n' -> grew n n'.
Proof.
  intros H [G1 G2 G3 G4 G5]. pose proof (still_leader _ _ H) as Hl. pose proof (still_cand _ _ H) as Hc. destruct H as [H1 H2 H3 _ _].
  constructor; rewrite <- ?H2, <- ?H3, <- ?Hl, <- ?Hc; auto.
Qed.
(* a leader's request *)
Lemma request_grew ok rnd x n n1 l er n' : client_request sz hmac x n = Ret (n1, (l, er)) -> change_state sz hmac ok rnd n1 = Ret n' -> grew n n'.
Proof.
  intros E1 E2. destruct (client_request_shape _ _ _ _ _ E1) as (H1 & H2 & _ & _ & H3 & H4). destruct (change_state_shape _ _ _ _ E2) as [G1 G2 G3 G4 G5].
  destruct (is_leader n) eqn:El.
  - assert (Hc : cand n1 = cand n) by (unfold kind, cand in *; destruct (n_role n), (n_role n1); congruence).
    constructor; auto; [congruence|eapply lgrow_trans; [exact H3|rewrite <- H2; exact G2]|rewrite <- Hc; auto].
  - rewrite (H4 eq_refl) in *. now constructor.
Qed.

(* --- entries from a message ------------------------------------------------------ *)
Definition lw (n : node) : Prop :=
  1 <= l_oldest (n_log n) /\ (l_oldest (n_log n) = 1 \/ l_oldest (n_log n) <= n_applied n) /\ n_applied n < nxt (n_log n) /\
  n_applied n <= n_commit n.
Lemma lw_next n : lw n -> last_idx (n_log n) + 1 = nxt (n_log n).
Proof.
  intros (H1 & H2 & H3 & _). unfold last_idx, nxt, llen in *. destruct (l_entries (n_log n)) as [|e es]; cbn [length] in *; lia.
Qed.
Lemma still_lw n n' : still n n' -> lw n -> lw n'.
Proof. intros [_ _ H1 H2 H3] (X1 & X2 & X3 & X4). unfold lw. rewrite H1, H2. do 3 (split; [assumption|]). lia. Qed.
Lemma cancel_shape idx l l' : term_at l idx <> 0 -> cancel_from idx l = (l', L_OK) ->
  nxt l' = idx /\ l_oldest l' = l_oldest l /\ forall i e, at_idx l' i = Some e -> at_idx l i = Some e.
Proof.
  unfold term_at, cancel_from. intros Ht E. destruct (at_idx l idx) as [x|] eqn:Ex; [|congruence].
  destruct (at_idx_lt _ _ _ Ex) as [H1 H2]. unfold nxt, llen in H2. destruct (idx <? l_oldest l) eqn:El; [lia|]. injection E as <-.
  assert (Hr : resize (N.to_nat (idx - l_oldest l)) (l_entries l) = firstn (N.to_nat (idx - l_oldest l)) (l_entries l)).
  { unfold resize. replace (_ - length (l_entries l))%nat with 0%nat by lia. apply app_nil_r. }
  rewrite Hr. unfold nxt, llen; cbn [l_oldest l_entries]. split; [rewrite firstn_length; lia|]. split; [reflexivity|].
  intros i e. unfold at_idx; cbn [l_entries l_oldest]. destruct (i <? l_oldest l) eqn:Ei; [discriminate|]. intros Hn.
  pose proof (proj1 (nth_error_Some _ _) ltac:(rewrite Hn; discriminate)) as Hl. rewrite firstn_length in Hl.
  rewrite <- Hn. symmetry. rewrite <- (firstn_skipn (N.to_nat (idx - l_oldest l)) (l_entries l)) at 2.
  rewrite nth_error_app1; [reflexivity|rewrite firstn_length; lia].
Qed.
Lemma process_shape es : forall idx p n n' p', lw n -> process_entries sz hmac es idx p n = Ret (n', p') ->
  kind n' = kind n /\ n_term n' = n_term n /\
  forall i e, at_idx (n_log n') i = Some e -> at_idx (n_log n) i = Some e \/ exists j, nth_error es j = Some e /\ i = idx + N.of_nat j.
Proof.
  induction es as [|e es IH]; intros idx p n n' p' Hw E; cbn [process_entries] in E.
  - injection E as <- _. auto.
  - set (conflict := (negb (term_at (n_log n) idx =? 0) && negb (term_at (n_log n) idx =? e_term e))%bool) in *.
    assert (Hsame : kind n = kind n /\ n_term n = n_term n /\
      forall i x, at_idx (n_log n) i = Some x -> at_idx (n_log n) i = Some x \/ exists j, nth_error (e :: es) j = Some x /\ i = idx + N.of_nat j) by auto.
    destruct (conflict && ((idx <=? n_commit n) || (idx <=? n_promise n)))%bool eqn:Ec; [injection E as <- _; exact Hsame|].
    destruct (if conflict then _ else Some n) as [n1|] eqn:En1; [|injection E as <- _; exact Hsame].
    assert (H1 : kind n1 = kind n /\ n_term n1 = n_term n /\ lw n1 /\ forall i x, at_idx (n_log n1) i = Some x -> at_idx (n_log n) i = Some x).
    { destruct conflict eqn:Ecf; [|injection En1 as <-; auto].
      destruct (cancel_from idx (n_log n)) as [l r] eqn:Ecl. destruct r; try discriminate. injection En1 as <-.
      cbn [andb] in Ec. apply Bool.orb_false_iff in Ec as [Ec1 Ec2].
      assert (Ht : term_at (n_log n) idx <> 0) by (unfold conflict in Ecf; destruct (term_at (n_log n) idx =? 0) eqn:E0; [discriminate|lia]).
      destruct (cancel_shape _ _ _ Ht Ecl) as (X1 & X2 & X3).
      pose proof (refresh_still (set_log l n)) as Hs. destruct Hw as (W1 & W2 & W3 & W4).
      assert (Hl : lw (set_log l n)) by (unfold lw; cbn [set_log n_log n_applied n_commit]; rewrite X1, X2; repeat split; auto; lia).
      split; [apply (sl_kind _ _ Hs)|]. split; [apply (sl_term _ _ Hs)|]. split; [exact (still_lw _ _ Hs Hl)|].
      rewrite (sl_log _ _ Hs). exact X3. }
    destruct H1 as (K1 & T1 & W1 & L1). clear Hsame.
    assert (Hlift : forall n2, (kind n2 = kind n1 /\ n_term n2 = n_term n1 /\ forall i x, at_idx (n_log n2) i = Some x ->
        at_idx (n_log n1) i = Some x \/ (i = idx /\ x = e) \/ exists j, nth_error es j = Some x /\ i = idx + 1 + N.of_nat j) ->
      kind n2 = kind n /\ n_term n2 = n_term n /\ forall i x, at_idx (n_log n2) i = Some x ->
        at_idx (n_log n) i = Some x \/ exists j, nth_error (e :: es) j = Some x /\ i = idx + N.of_nat j).
    { intros n2 (Y1 & Y2 & Y3). split; [congruence|]. split; [congruence|]. intros i x Hx. destruct (Y3 i x Hx) as [H|[[-> ->]|(j & H & ->)]]; [left; auto|right; exists 0%nat; split; [reflexivity|lia]|right; exists (S j); split; [exact H|lia]]. }
    destruct (idx =? last_idx (n_log n1) + 1) eqn:Ei.
    + destruct (negb (beq (next_hash hmac (n_log n1) (e_term e) (e_inner e)) (e_hash e))); [injection E as <- _; apply Hlift; auto|].
      apply bind_inv in E as ([n2 [l er]] & E1 & E). destruct (log_append_shape _ _ _ _ _ E1) as (K2 & T2 & A2 & C2 & G2 & L2 & N2 & N3 & O2).
      assert (Hidx : idx = nxt (n_log n1)) by (rewrite <- (lw_next n1 W1); lia).
      destruct er; try (injection E as <- _; apply Hlift; split; [assumption|]; split; [assumption|]; intros i x Hx; destruct (L2 i x Hx) as [H|[-> ->]]; auto).
      assert (W2 : lw n2).
      { destruct W1 as (W1 & W3 & W4 & W5). specialize (N2 eq_refl). unfold lw. rewrite A2.
        assert (Hlow : 1 <= l_oldest (n_log n2)).
        { clear - E1 W1 sz. unfold log_append in E1. cbv zeta in E1.
          assert (Ha : forall l0 r0, append sz e (n_applied n1) (n_log n1) = Ret (l0, r0) -> 1 <= l_oldest l0).
          { intros l0 r0 E. unfold append in E. destruct (_ =? 0); [injection E as <- _; assumption|]. destruct (negb _); [injection E as <- _; assumption|].
            apply bind_inv in E as ([ok [[es0 old] b]] & E2 & E). apply make_room_log in E2 as (d & -> & -> & _ & _).
            destruct (negb ok); [injection E as <- _; cbn; lia|]. destruct (INT_MAX <? byte_size e); injection E as <- _; cbn; lia. }
          destruct (e_inner e) as [|d|g|m]; try (apply bind_inv in E1 as ([l0 r0] & E2 & E1); specialize (Ha _ _ E2); destruct r0; try discriminate; injection E1 as <- _; exact Ha).
          destruct (from_proto g) as [mm em]. destruct em; try discriminate. apply bind_inv in E1 as ([l0 r0] & E2 & E1); specialize (Ha _ _ E2).
          destruct r0; try discriminate. apply bind_inv in E1 as (n3 & E3 & E1). injection E1 as <- _. rewrite (sl_log _ _ (add_uncommitted_still _ _ _ _ E3)). exact Ha. }
        split; [assumption|]. split; [destruct O2 as [O2|O2]; [rewrite O2; assumption|now right]|]. split; lia. }
      destruct (IH _ _ _ _ _ W2 E) as (K3 & T3 & L3). apply Hlift. split; [congruence|]. split; [congruence|]. intros i x Hx.
      destruct (L3 i x Hx) as [H|(j & H & ->)]; [destruct (L2 i x H) as [H'|[-> ->]]; auto|right; right; eauto].
    + destruct (IH _ _ _ _ _ W1 E) as (K3 & T3 & L3). apply Hlift. split; [assumption|]. split; [assumption|]. intros i x Hx.
      destruct (L3 i x Hx) as [H|(j & H & ->)]; [auto|right; right; eauto].
Qed.

(* --- a whole call ------------------------------------------------------------------ *)
Definition from_msg (o : rop) (i : N) (e : entry) : Prop :=
  exists ok1 ok2 rnd from m prev pterm commit es promise ph j,
    o = OReceive ok1 ok2 rnd from m /\ m_body m = AppReq prev pterm commit es promise ph /\
    nth_error es j = Some e /\ i = prev + 1 + N.of_nat j.
Record mid (n : node) (o : rop) (n2 : node) : Prop := MkMid {
  md_term : n_term n <= n_term n2;
  md_log : forall i e, at_idx (n_log n2) i = Some e -> at_idx (n_log n) i = Some e \/ from_msg o i e;
  md_lead : is_leader n2 = true -> is_leader n = true /\ n_term n2 = n_term n;
  md_cand : cand n2 = true -> n_term n < n_term n2 \/ (n_term n2 = n_term n /\ cand n = true);
  md_same : is_leader n2 = true \/ cand n2 = true -> n_log n2 = n_log n
}.
Record shape (n : node) (o : rop) (n' : node) : Prop := MkShape {
  sp_term : n_term n <= n_term n';
  sp_log : forall i e, at_idx (n_log n') i = Some e -> at_idx (n_log n) i = Some e \/
    (nxt (n_log n) <= i /\ e_term e = n_term n' /\ ((is_leader n = true /\ n_term n' = n_term n) \/ is_leader n' = true)) \/
    from_msg o i e;
  sp_keep : is_leader n = true -> is_leader n' = true -> n_term n' = n_term n -> lgrow (n_term n) (n_log n) (n_log n');
  sp_lead : is_leader n' = true -> (is_leader n = true /\ n_term n' = n_term n) \/ n_term n < n_term n' \/ (n_term n' = n_term n /\ cand n = true);
  sp_cand : cand n' = true -> n_term n < n_term n' \/ (n_term n' = n_term n /\ cand n = true);
  sp_same : cand n' = true -> n_log n' = n_log n;
  sp_grow : is_leader n' = true -> lgrow (n_term n') (n_log n) (n_log n');
  sp_own : forall i e, at_idx (n_log n') i = Some e -> at_idx (n_log n) i = Some e \/ from_msg o i e \/ lgrow (n_term n') (n_log n) (n_log n')
}.
Lemma leader_cand n : is_leader n = true -> cand n = true -> False.
Proof. unfold is_leader, cand. destruct (n_role n); discriminate. Qed.
Lemma mid_grew n o n2 n' : mid n o n2 -> grew n2 n' -> shape n o n'.
Proof.
  intros [M1 M2 M3 M4 M5] [G1 G2 G3 G4 G5]. constructor.
  - lia.
  - intros i e He. destruct G2 as [G2 G6]. destruct (G6 i e He) as [[H1 H2]|[H1 H2]].
    + destruct (M2 i e H2); auto.
    + destruct G3 as [G3|[G3|G3]].
      * destruct (M3 G3) as [X1 X2]. right; left. rewrite <- (M5 (or_introl G3)). split; [assumption|]. split; [congruence|]. left. split; [assumption|congruence].
      * right; left. rewrite <- (M5 (G4 G3)). split; [assumption|]. split; [congruence|now right].
      * rewrite G3 in He. apply at_idx_lt in He. lia.
  - intros L1 L2 T. destruct (G4 L2) as [X|X].
    + destruct (M3 X) as [X1 X2]. rewrite <- (M5 (or_introl X)). rewrite <- X2. exact G2.
    + destruct (M4 X) as [Y|[_ Y]]; [lia|]. exfalso. exact (leader_cand n L1 Y).
  - intros L2. destruct (G4 L2) as [X|X].
    + destruct (M3 X) as [X1 X2]. left. split; [assumption|congruence].
    + destruct (M4 X) as [Y|[Y1 Y2]]; [right; left; lia|right; right; split; [congruence|assumption]].
  - intros C. destruct (M4 (G5 C)) as [Y|[Y1 Y2]]; [left; lia|right; split; [congruence|assumption]].
  - intros C. rewrite <- (M5 (or_intror (G5 C))). destruct G3 as [G3|[G3|G3]]; [|exfalso; exact (leader_cand _ G3 C)|assumption].
    exfalso. exact (leader_cand _ G3 (G5 C)).
  - intros L2. rewrite <- (M5 (G4 L2)), G1. exact G2.
  - intros i e He. destruct G3 as [G3|[G3|G3]].
    + right; right. rewrite <- (M5 (or_introl G3)), G1. exact G2.
    + right; right. rewrite <- (M5 (G4 G3)), G1. exact G2.
    + rewrite G3 in He. destruct (M2 i e He); auto.
Qed.
Lemma grew_refl n : grew n n. Proof. constructor; auto. apply lgrow_refl. Qed.
Lemma mid_shape n o n' : mid n o n' -> shape n o n'.
Proof. intros H. eapply mid_grew; [exact H|apply grew_refl]. Qed.
Lemma still_mid n o n' : still n n' -> mid n o n'.
Proof.
  intros H. pose proof (still_leader _ _ H) as Hl. pose proof (still_cand _ _ H) as Hc. destruct H as [H1 H2 H3 _ _].
  constructor; rewrite ?Hl, ?Hc, ?H2, ?H3; auto. lia.
Qed.
Lemma mid_still n o n1 n2 : mid n o n1 -> still n1 n2 -> mid n o n2.
Proof.
  intros [M1 M2 M3 M4 M5] H. pose proof (still_leader _ _ H) as Hl. pose proof (still_cand _ _ H) as Hc. destruct H as [H1 H2 H3 _ _].
  constructor; rewrite ?Hl, ?Hc, ?H2, ?H3; auto.
Qed.
Lemma kind_mid n o n' : kind n' = kind n -> n_term n' = n_term n -> n_log n' = n_log n -> mid n o n'.
Proof.
  intros H1 H2 H3. assert (Hl : is_leader n' = is_leader n) by (unfold kind, is_leader in *; destruct (n_role n), (n_role n'); congruence).
  assert (Hc : cand n' = cand n) by (unfold kind, cand in *; destruct (n_role n), (n_role n'); congruence).
  constructor; rewrite ?Hl, ?Hc, ?H2, ?H3; auto. lia.
Qed.
(* what comes before does not touch the log; the term may rise, and then the replica follows *)
Lemma election_mid rnd n0 o n n' : n_log n = n_log n0 -> n_term n0 <= n_term n -> (is_leader n = true -> is_leader n0 = true /\ n_term n = n_term n0) ->
  (cand n = true -> cand n0 = true /\ n_term n = n_term n0) -> election_timeout rnd n = Ret n' -> mid n0 o n'.
Proof.
  intros Hlog Hterm Hlead Hcand E. unfold election_timeout in E.
  assert (Hsame : forall n1, kind n1 = kind n -> n_log n1 = n_log n -> n_term n1 = n_term n -> mid n0 o n1).
  { intros n1 K L T. assert (Hl : is_leader n1 = is_leader n) by (unfold kind, is_leader in *; destruct (n_role n), (n_role n1); congruence).
    assert (Hc : cand n1 = cand n) by (unfold kind, cand in *; destruct (n_role n), (n_role n1); congruence).
    constructor; rewrite ?Hl, ?Hc, ?L, ?T, ?Hlog; auto. intros C. right. destruct (Hcand C); auto. }
  destruct (negb (voting n)).
  - injection E as <-. destruct (n_role n) eqn:Er; apply Hsame; auto; unfold kind; cbn; now rewrite Er.
  - assert (Hrun : forall n1, (let* b := vote_request (set_role (Candidate [n_me n] rnd) (set_voted (Some (n_me n)) (set_term (n_term n + 1) n))) in
        add_msg None (RMsg (n_group n) (n_term n + 1) b) (set_role (Candidate [n_me n] rnd) (set_voted (Some (n_me n)) (set_term (n_term n + 1) n)))) = Ret n1 -> mid n0 o n1).
    { intros n1 E1. apply bind_inv in E1 as (b & _ & E1). apply add_msg_still in E1. pose proof (still_leader _ _ E1) as Hl. pose proof (still_cand _ _ E1) as Hc.
      destruct E1 as [K T L _ _]. cbn in Hl, Hc, T, L. constructor; rewrite ?Hl, ?Hc, ?L, ?T, ?Hlog; auto; try lia; try discriminate. }
    destruct (n_role n) eqn:Er; [apply Hrun; exact E|apply Hrun; exact E|]. injection E as <-. now apply Hsame.
Qed.
Lemma update_term_facts rnd t n : n_log (update_term rnd t n) = n_log n /\ n_term n <= n_term (update_term rnd t n) /\
  n_applied (update_term rnd t n) = n_applied n /\ n_commit (update_term rnd t n) = n_commit n /\
  (kind (update_term rnd t n) = KF \/ update_term rnd t n = n).
Proof. unfold update_term. destruct (t <=? n_term n) eqn:E; cbn; repeat split; auto; lia. Qed.
Lemma append_request_mid ok rnd t prev pterm commit es promise from ok1 ok2 rnd' m ph n0 n n' :
  m_body m = AppReq prev pterm commit es promise ph -> lw n -> n_log n = n_log n0 -> n_term n0 <= n_term n ->
  (is_leader n = true -> is_leader n0 = true /\ n_term n = n_term n0) -> (cand n = true -> cand n0 = true /\ n_term n = n_term n0) ->
  handle_append_request sz hmac ok rnd t prev pterm commit es promise from n = Ret n' -> mid n0 (OReceive ok1 ok2 rnd' from m) n'.
Proof.
  intros Hm Hw Hlog Hterm Hlead Hcand E. unfold handle_append_request in E. cbv zeta in E.
  assert (Hsame : forall n1, kind n1 = kind n -> n_log n1 = n_log n -> n_term n1 = n_term n -> mid n0 (OReceive ok1 ok2 rnd' from m) n1).
  { intros n1 K L T. assert (Hl : is_leader n1 = is_leader n) by (unfold kind, is_leader in *; destruct (n_role n), (n_role n1); congruence).
    assert (Hc : cand n1 = cand n) by (unfold kind, cand in *; destruct (n_role n), (n_role n1); congruence).
    constructor; rewrite ?Hl, ?Hc, ?L, ?T, ?Hlog; auto. intros C. right. destruct (Hcand C); auto. }
  destruct (n_term n <? t); [injection E as <-; now apply Hsame|].
  destruct (t <? n_term n).
  { apply reply_still in E as [K T L _ _]. now apply Hsame. }
  assert (Hrest : forall n1, kind n1 = KF -> n_log n1 = n_log n -> n_term n1 = n_term n -> n_applied n1 = n_applied n -> n_commit n1 = n_commit n ->
    (if negb ((prev =? 0) || match at_idx (n_log n) prev with Some e => pterm =? e_term e | None => false end)%bool
     then reply from (AppResp false (n_commit n1) (last_idx (n_log n1)) (n_promise n1) (hash_at (n_log n1) (n_commit n1))) n1
     else let* '(n2, processed) := process_entries sz hmac es (prev + 1) prev n1 in
          if (((n_commit n2 <? N.min commit processed) || (n_promise n2 <? N.min promise processed)) && negb ok)%bool then Ret n2 else
          reply from (AppResp true processed (last_idx (n_log (if n_commit (if n_promise n2 <? N.min promise processed then set_promise (N.min promise processed) n2 else n2) <? N.min commit processed then refresh_members (set_commit (N.min commit processed) (if n_promise n2 <? N.min promise processed then set_promise (N.min promise processed) n2 else n2)) else (if n_promise n2 <? N.min promise processed then set_promise (N.min promise processed) n2 else n2))))
              (N.min (n_promise (if n_commit (if n_promise n2 <? N.min promise processed then set_promise (N.min promise processed) n2 else n2) <? N.min commit processed then refresh_members (set_commit (N.min commit processed) (if n_promise n2 <? N.min promise processed then set_promise (N.min promise processed) n2 else n2)) else (if n_promise n2 <? N.min promise processed then set_promise (N.min promise processed) n2 else n2))) processed)
              (hash_at (n_log (if n_commit (if n_promise n2 <? N.min promise processed then set_promise (N.min promise processed) n2 else n2) <? N.min commit processed then refresh_members (set_commit (N.min commit processed) (if n_promise n2 <? N.min promise processed then set_promise (N.min promise processed) n2 else n2)) else (if n_promise n2 <? N.min promise processed then set_promise (N.min promise processed) n2 else n2))) processed))
            (if n_commit (if n_promise n2 <? N.min promise processed then set_promise (N.min promise processed) n2 else n2) <? N.min commit processed then refresh_members (set_commit (N.min commit processed) (if n_promise n2 <? N.min promise processed then set_promise (N.min promise processed) n2 else n2)) else (if n_promise n2 <? N.min promise processed then set_promise (N.min promise processed) n2 else n2))) = Ret n' ->
    mid n0 (OReceive ok1 ok2 rnd' from m) n').
  { intros n1 K L T A1 C1 E1.
    assert (Hf : forall n3, kind n3 = KF -> n_term n3 = n_term n -> (forall i e, at_idx (n_log n3) i = Some e -> at_idx (n_log n) i = Some e \/ exists j, nth_error es j = Some e /\ i = prev + 1 + N.of_nat j) ->
      mid n0 (OReceive ok1 ok2 rnd' from m) n3).
    { intros n3 K3 T3 L3. constructor.
      - lia.
      - rewrite <- Hlog. intros i e He. destruct (L3 i e He) as [H|(j & H1 & H2)]; [auto|right]. exists ok1, ok2, rnd', from, m, prev, pterm, commit, es, promise, ph, j. auto.
      - intros X. apply leader_kind in X as [r X]. congruence.
      - intros X. apply cand_kind in X. congruence.
      - intros [X|X]; [apply leader_kind in X as [r X]; congruence|apply cand_kind in X; congruence]. }
    destruct (negb _).
    - apply reply_still in E1 as [K1 T1 L1 _ _]. apply Hf; [congruence|congruence|]. rewrite L1, L. auto.
    - apply bind_inv in E1 as ([n2 processed] & E2 & E1).
      assert (W1 : lw n1) by (unfold lw in *; rewrite L, A1, C1; exact Hw).
      destruct (process_shape _ _ _ _ _ _ W1 E2) as (K2 & T2 & L2). rewrite L in L2.
      destruct (_ && negb ok)%bool; [injection E1 as <-; apply Hf; [congruence|congruence|exact L2]|].
      apply reply_still in E1.
      set (n3 := if n_promise n2 <? N.min promise processed then set_promise (N.min promise processed) n2 else n2) in *.
      assert (S3 : still n2 n3) by (unfold n3; destruct (_ <? _); constructor; auto; cbn; lia).
      set (n4 := if n_commit n3 <? N.min commit processed then refresh_members (set_commit (N.min commit processed) n3) else n3) in *.
      assert (S4 : still n3 n4).
      { unfold n4. destruct (n_commit n3 <? N.min commit processed) eqn:Ec; [|apply still_refl]. eapply still_trans; [|apply refresh_still]. constructor; auto; cbn; lia. }
      pose proof (still_trans _ _ _ (still_trans _ _ _ S3 S4) E1) as [K5 T5 L5 _ _]. apply Hf; [congruence|congruence|]. rewrite L5. exact L2. }
  destruct (n_role n) eqn:Er; [| |injection E as <-; now apply Hsame].
  - apply (Hrest (set_role (Follower (Some from) rnd) n)); auto.
  - apply (Hrest (set_role (Follower (Some from) rnd) n)); auto.
Qed.

(* a call is changes that add no entries of its own, then the end of a call *)
Definition mids (n : node) (o : rop) (n' : node) : Prop :=
  mid n o n' \/ exists n2 ok rnd, mid n o n2 /\ change_state sz hmac ok rnd n2 = Ret n'.
Lemma mids_shape n o n' : mids n o n' -> shape n o n'.
Proof. intros [H|(n2 & ok & rnd & H & E)]; [now apply mid_shape|]. eapply mid_grew; [exact H|exact (change_state_shape _ _ _ _ E)]. Qed.
Lemma receive_mids ok1 ok2 rnd m from n n' : lw n -> receive sz hmac ok1 ok2 rnd m from n = Ret n' -> mids n (OReceive ok1 ok2 rnd from m) n'.
Proof.
  intros Hw E. unfold receive in E. apply bind_inv in E as (er & _ & E).
  destruct er; try (injection E as <-; left; apply still_mid, still_refl). cbv zeta in E.
  destruct (update_term_facts rnd (m_term m) n) as (U1 & U2 & U3 & U4 & U5).
  pose proof (seen_now_still from (update_term rnd (m_term m) n)) as Hs. set (n1 := seen_now from (update_term rnd (m_term m) n)) in *.
  assert (Hlog : n_log n1 = n_log n) by (rewrite (sl_log _ _ Hs); exact U1).
  assert (Hterm : n_term n <= n_term n1) by (rewrite (sl_term _ _ Hs); exact U2).
  assert (Hlead : is_leader n1 = true -> is_leader n = true /\ n_term n1 = n_term n).
  { rewrite (still_leader _ _ Hs), (sl_term _ _ Hs). destruct U5 as [U5| ->]; [|auto]. intros X. apply leader_kind in X as [r X]. congruence. }
  assert (Hcand : cand n1 = true -> cand n = true /\ n_term n1 = n_term n).
  { rewrite (still_cand _ _ Hs), (sl_term _ _ Hs). destruct U5 as [U5| ->]; [|auto]. intros X. apply cand_kind in X. congruence. }
  assert (Hw1 : lw n1) by (apply (still_lw _ _ Hs); unfold lw in *; now rewrite U1, U3, U4).
  apply bind_inv in E as (n2 & E2 & E). right. exists n2. eexists _, _. split; [|exact E].
  assert (Hsame : forall n3, kind n3 = kind n1 -> n_log n3 = n_log n1 -> n_term n3 = n_term n1 -> mid n (OReceive ok1 ok2 rnd from m) n3).
  { intros n3 K L T. assert (Hl : is_leader n3 = is_leader n1) by (unfold kind, is_leader in *; destruct (n_role n1), (n_role n3); congruence).
    assert (Hc : cand n3 = cand n1) by (unfold kind, cand in *; destruct (n_role n1), (n_role n3); congruence).
    constructor; rewrite ?Hl, ?Hc, ?L, ?T, ?Hlog; auto. intros C. right. destruct (Hcand C); auto. }
  destruct (m_body m) as [lidx lterm h|g|prev pterm commit es promise ph|sc midx mlast mp mh| |] eqn:Eb.
  - unfold handle_vote_request in E2. cbv zeta in E2. destruct (n_term n1 <? m_term m); [injection E2 as <-; now apply Hsame|].
    apply reply_still in E2 as [K T L _ _].
    destruct (_ && _ && _)%bool in K, T, L.
    + apply Hsame; [rewrite K|rewrite L; reflexivity|rewrite T; reflexivity]. unfold kind; cbn [set_role n_role]. destruct (n_role n1); reflexivity.
    + apply Hsame; congruence.
  - destruct (m_term m <? n_term n1); [injection E2 as <-; now apply Hsame|]. injection E2 as <-.
    unfold handle_vote_response. destruct (negb _); [now apply Hsame|]. destruct (n_role n1) eqn:Er; try now apply Hsame.
    destruct (g && _)%bool; [|now apply Hsame]. apply Hsame; auto. unfold kind; cbn. now rewrite Er.
  - exact (append_request_mid _ _ _ _ _ _ _ _ _ _ _ _ _ _ _ _ _ Eb Hw1 Hlog Hterm Hlead Hcand E2).
  - destruct (m_term m <? n_term n1); [injection E2 as <-; now apply Hsame|].
    unfold handle_append_response in E2. destruct (negb _); [injection E2 as <-; now apply Hsame|].
    destruct (n_role n1) as [| |fs hb rel] eqn:Er; try (injection E2 as <-; now apply Hsame).
    assert (Hset : forall fs', kind (set_role (Leader fs' hb rel) n1) = kind n1) by (intros fs'; unfold kind; cbn; now rewrite Er).
    destruct (lookup from fs) as [f|]; [|injection E2 as <-; now apply Hsame].
    destruct sc; [|injection E2 as <-; now apply Hsame]. cbv zeta in E2. destruct (match at_idx (n_log n1) midx with Some _ => _ | None => _ end); [|discriminate].
    injection E2 as <-; now apply Hsame.
  - destruct (m_term m <? n_term n1); [injection E2 as <-; now apply Hsame|].
    exact (election_mid rnd n _ n1 n2 Hlog Hterm Hlead Hcand E2).
  - injection E2 as <-; now apply Hsame.
Qed.
Lemma tick_mids ok rnd n n' : timer_tick sz hmac ok rnd n = Ret n' -> mids n (OTick ok rnd) n'.
Proof.
  intros E1. unfold timer_tick in E1. apply bind_inv in E1 as (n2 & E2 & E1). right. exists n2. eexists _, _. split; [|exact E1].
  destruct (n_role n) as [l e|v e|fs hb rel] eqn:Er.
  - cbv zeta in E2. destruct (e - 1 <=? 0)%Z.
    + assert (Hf : kind n = KF) by (unfold kind; now rewrite Er).
      apply (election_mid rnd n (OTick ok rnd) (set_role (Follower l (e - 1)) n)) in E2; auto; try (cbn; lia); intros X; discriminate.
    + injection E2 as <-. apply kind_mid; auto. unfold kind; cbn; now rewrite Er.
  - cbv zeta in E2. destruct (e - 1 <=? 0)%Z.
    + apply (election_mid rnd n (OTick ok rnd) (set_role (Candidate v (e - 1)) n)) in E2; auto; try (cbn; lia); try (intros X; discriminate X).
      intros _. split; [unfold cand; now rewrite Er|reflexivity].
    + injection E2 as <-. apply kind_mid; auto. unfold kind; cbn; now rewrite Er.
  - cbv zeta in E2. destruct (hb - 1 <=? 0)%Z; injection E2 as <-; apply kind_mid; auto; unfold kind; cbn; now rewrite Er.
Qed.
Lemma shape_out n o n' out : shape n o n' -> shape n o (set_out out n').
Proof. intros []; constructor; auto. Qed.
Lemma rstep_shape n o n' a : lw n -> rstep sz hmac n o = Ret (n', a) -> shape n o n'.
Proof.
  intros Hw E. destruct o as [ok rnd|ok1 ok2 rnd from m|id|c|ok rnd|ok rnd x|]; cbn [rstep] in E.
  - apply bind_inv in E as (n1 & E1 & E). injection E as <- _. apply shape_out, mids_shape, tick_mids. exact E1.
  - apply bind_inv in E as (n1 & E1 & E). injection E as <- _. apply shape_out. apply mids_shape. exact (receive_mids _ _ _ _ _ _ _ Hw E1).
  - apply bind_inv in E as (n1 & E1 & E). injection E as <- _. apply shape_out, mid_shape.
    unfold reset_peer in E1. destruct (negb _); [injection E1 as <-; apply still_mid, still_refl|].
    destruct (n_role n) as [| |fs hb rel] eqn:Er; [injection E1 as <-; apply still_mid, still_refl| |].
    + apply bind_inv in E1 as (b & _ & E1). apply still_mid. exact (reply_still _ _ _ _ E1).
    + destruct (lookup id fs); injection E1 as <-; [|apply still_mid, still_refl]. apply kind_mid; auto. unfold kind; cbn; now rewrite Er.
  - injection E as <- _. apply shape_out, mid_shape. apply kind_mid; auto. unfold reconfigure, kind; cbn. destruct (n_role n); reflexivity.
  - apply bind_inv in E as (n1 & E1 & E). injection E as <- _. apply shape_out. unfold relinquish in E1.
    destruct (n_role n) as [| |fs hb rel] eqn:Er; try (injection E1 as <-; apply mid_shape, still_mid, still_refl).
    destruct rel; [injection E1 as <-; apply mid_shape, still_mid, still_refl|].
    apply bind_inv in E1 as ([n2 [l er]] & E2 & E1). destruct (client_request_shape _ _ _ _ _ E2) as (K & T & _ & _ & L & _).
    destruct (n_role n2) as [| |fs2 hb2 rel2] eqn:Er2; try discriminate.
    pose proof (change_state_shape _ _ _ _ E1) as [G1 G2 G3 G4 G5]. cbn [set_role n_term n_log] in G1, G2.
    assert (Hl : is_leader n = true) by (unfold is_leader; now rewrite Er).
    apply (mid_grew _ _ n); [apply still_mid, still_refl|]. constructor.
    + congruence.
    + eapply lgrow_trans; [exact L|]. rewrite <- T. exact G2.
    + now left.
    + now left.
    + intros X. apply G5 in X. discriminate.
  - apply bind_inv in E as ([n1 [l er]] & E1 & E). injection E as <- _. apply shape_out. unfold log_request in E1. cbv zeta in E1.
    destruct (match x with IMember g => _ | _ => RE_OK end); try (injection E1 as <- _ _; apply mid_shape, still_mid, still_refl).
    apply bind_inv in E1 as ([n2 [l2 er2]] & E2 & E1). apply bind_inv in E1 as (n3 & E3 & E1). injection E1 as <- _ _.
    apply (mid_grew _ _ n); [apply still_mid, still_refl|]. exact (request_grew _ _ _ _ _ _ _ _ E2 E3).
  - apply bind_inv in E as ([n1 t] & E1 & E). injection E as <- _. apply shape_out, mid_shape. unfold take_committed in E1.
    destruct (_ <=? _); [injection E1 as <- _; apply still_mid, still_refl|]. cbv zeta in E1.
    destruct (at_idx _ _); [|discriminate]. injection E1 as <- _. apply kind_mid; reflexivity.
Qed.
Lemma RI_lw G W L C MP K MS ID n A : RI hmac G W L C MP K MS ID n A -> lw n.
Proof.
  intros []. destruct ri_st as (d & H1 & H2 & H3 & H4). unfold lw, nxt, llen in *. rewrite H1, skipn_length, H2. repeat split; try lia.
Qed.
End Shape.
