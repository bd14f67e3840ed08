(* No call stops a replica: proofs. *)
From Verif Require Import RaftLog Raft RaftSpec RaftChain RaftLogProofs RaftNode RaftRun RaftNet RaftNetSpec RaftNetProofs RaftShape
  RaftMoveSpec RaftMoveProofs Membership MembershipSpec MembershipProofs MemberLogSpec MemberLogProofs StopSpec UtilProofs.

Definition runs {T} (x : outcome T) : Prop := exists r, x = Ret r.
Lemma runs_ret {T} (r : T) : runs (Ret r). Proof. now exists r. Qed.
Lemma runs_bind {T U} (x : outcome T) (f : T -> outcome U) : runs x -> (forall r, x = Ret r -> runs (f r)) -> runs (let* r := x in f r).
Proof. intros [r ->] H. exact (H r eq_refl). Qed.
Lemma runs_crash {T} (x : outcome T) : runs x -> x <> Crash. Proof. intros [r ->]. discriminate. Qed.

Section Stop.
Variable sz : sizes.
Variable hmac : bytes -> bytes -> bytes.
Variable M : members.
Variable L0 : list entry.
Notation J := (J M L0).

(* --- the log ----------------------------------------------------------------------- *)
Lemma make_room_runs need t max es : forall old b, t <= old + llen es -> runs (make_room sz need t max es old b).
Proof.
  induction es as [|e es IH]; intros old b H; cbn [make_room]; (destruct (_ <=? _); [apply runs_ret|]);
    destruct (t <=? old) eqn:E; try apply runs_ret.
  - unfold llen in H; cbn in H. lia.
  - apply IH. unfold llen in *; cbn [length] in H. lia.
Qed.
Lemma append_runs e l t A : stored l t A -> t <= llen A -> runs (append sz e t l).
Proof.
  intros (d & He & Ho & Hd & _) Ht. unfold append. destruct (_ =? 0); [apply runs_ret|]. destruct (negb _); [apply runs_ret|]. cbv zeta.
  apply runs_bind.
  - apply make_room_runs. rewrite Ho, He. unfold llen in *. rewrite skipn_length. lia.
  - intros [ok [[es old] b]] _. destruct (negb ok); [apply runs_ret|]. destruct (_ <? _); apply runs_ret.
Qed.
Lemma check_runs n A i t h : stored (n_log n) (n_applied n) A -> n_applied n <= llen A -> runs (check_log_hash n i t h).
Proof.
  intros Hs Ha. unfold check_log_hash. cbv zeta. destruct (i =? 0) eqn:E0; [apply runs_ret|]. destruct (i <? oldest_idx (n_log n)) eqn:Eo; [apply runs_ret|].
  destruct (last_idx (n_log n) <? i) eqn:El; [apply runs_ret|]. rewrite (st_last _ _ _ Hs Ha) in El.
  assert (HA : A <> []) by (intros ->; unfold llen in El; cbn in El; lia).
  rewrite (st_oldest _ _ _ Hs Ha HA) in Eo. rewrite (st_at_ge _ _ _ i Hs) by lia. destruct (nth_entry_some A i) as [e ->]; [lia|lia|].
  destruct (_ && _)%bool; [apply runs_ret|]. destruct (_ && _)%bool; [apply runs_ret|]. destruct (beq _ _); apply runs_ret.
Qed.
Lemma check_entries_runs n A es : stored (n_log n) (n_applied n) A -> n_applied n <= llen A -> forall i, runs (check_entries n es i).
Proof.
  intros Hs Ha. induction es as [|e es IH]; intros i; cbn [check_entries]; [apply runs_ret|]. apply runs_bind; [eapply check_runs; eassumption|].
  intros er _. destruct er; try apply runs_ret. apply IH.
Qed.
Lemma validate_runs m from n A : stored (n_log n) (n_applied n) A -> n_applied n <= llen A -> runs (validate_msg m from n).
Proof.
  intros Hs Ha. unfold validate_msg. destruct (negb _); [apply runs_ret|]. destruct (negb _); [apply runs_ret|].
  destruct (m_body m); try apply runs_ret.
  - eapply check_runs; eassumption.
  - apply runs_bind; [eapply check_runs; eassumption|]. intros er _. destruct er; try apply runs_ret.
    destruct (_ <? _); [apply runs_ret|]. destruct (_ <? _); [apply runs_ret|]. destruct (_ <? _); [apply runs_ret|]. eapply check_entries_runs; eassumption.
  - apply runs_bind; [eapply check_runs; eassumption|]. intros er _. destruct er; try apply runs_ret. destruct (_ || _)%bool; apply runs_ret.
Qed.
Lemma log_append_runs e n A : J n A -> n_commit n <= llen A -> runs (log_append sz e n).
Proof.
  intros HJ Hc. unfold log_append. cbv zeta.
  assert (Hun : forall l m, append sz e (n_applied n) (n_log n) = Ret (l, L_OK) -> runs (add_uncommitted (last_idx l) m (set_log l n))).
  { intros l m E. destruct HJ as [H1 H2 H3 H4 [H5 H6]]. destruct (append_stored sz e (n_log n) (n_applied n) A l L_OK H1 H3 E) as [Hst _].
    assert (Hl : last_idx l = llen A + 1) by (rewrite (st_last l (n_applied n) (A ++ [e])); [now rewrite llen_app|exact Hst|rewrite llen_app; lia]).
    unfold add_uncommitted. cbn [set_log n_unc]. destruct (n_unc n) as [|u us] eqn:Eu; [apply runs_ret|].
    assert (Hin : In (last (u :: us) (0, m)) (u :: us)).
    { destruct (exists_last (l := u :: us)) as (l1 & x & ->); [discriminate|]. rewrite last_last. apply in_or_app. right. now left. }
    set (q := last (u :: us) (0, m)) in *. clearbody q. rewrite H6 in Hin. destruct q as [j x]. apply mems_ge in Hin. unfold llen in *. rewrite skipn_length in Hin. cbn [fst].
    destruct (j <? last_idx l) eqn:Ej; [apply runs_ret|lia]. }
  assert (Hgo : forall mem, runs (let* '(l, er) := append sz e (n_applied n) (n_log n) in
      let n1 := set_log l n in
      match er with
      | L_OK =>
          let here := Loc (n_term n1) (last_idx l) (e_hash e) in
          match mem : option (members * merr) with
          | Some (m, _) => let* n2 := add_uncommitted (lc_idx here) m n1 in Ret (n2, (here, RE_OK))
          | None => Ret (n1, (here, RE_OK))
          end
      | _ => Ret (n1, (no_loc, RE_Log er))
      end)).
  { intros mem. apply runs_bind; [eapply append_runs; [apply (j_st _ _ _ _ HJ)|apply (j_al _ _ _ _ HJ)]|]. intros [l er] E. cbv zeta. cbn [lc_idx].
    destruct er; try apply runs_ret. destruct mem as [[m x]|]; [|apply runs_ret]. apply runs_bind; [now apply Hun|]. intros; apply runs_ret. }
  destruct (match e_inner e with IMember g => Some (from_proto g) | _ => None end) as [[m x]|]; [|apply (Hgo None)].
  destruct x; try apply runs_ret. apply (Hgo (Some (m, M_OK))).
Qed.
Lemma client_request_runs x n A : J n A -> n_commit n <= llen A -> runs (client_request sz hmac x n).
Proof.
  intros HJ Hc. unfold client_request. destruct (n_role n) as [| |fs hb rel]; try apply runs_ret. destruct rel; [apply runs_ret|]. eapply log_append_runs; eassumption.
Qed.
Lemma process_runs es : forall idx p n A, J n A -> n_commit n <= llen A -> 0 < idx -> runs (process_entries sz hmac es idx p n).
Proof.
  induction es as [|e es IH]; intros idx p n A HJ Hc Hi; cbn [process_entries]; [apply runs_ret|]. cbv zeta.
  set (conflict := (negb (term_at (n_log n) idx =? 0) && negb (term_at (n_log n) idx =? e_term e))%bool).
  destruct (conflict && _)%bool eqn:Eb; [apply runs_ret|]. destruct (if conflict then _ else _) as [n1|] eqn:Ecan; [|apply runs_ret].
  assert (H1 : exists A1, J n1 A1 /\ n_commit n1 <= llen A1).
  { destruct conflict eqn:Econ.
    - destruct (cancel_from idx (n_log n)) as [l r] eqn:Ec. destruct r; try discriminate. injection Ecan as <-.
      unfold conflict in Econ. apply andb_true_iff in Econ as [Ht _]. cbn [andb] in Eb. apply orb_false_iff in Eb as [Eb _].
      assert (Hin : idx <= llen A).
      { unfold term_at in Ht. destruct (at_idx (n_log n) idx) as [a|] eqn:Ea; [|discriminate]. apply (st_at_some _ _ _ _ _ (j_st _ _ _ _ HJ)), nth_entry_len in Ea. lia. }
      exists (upto (idx - 1) A). split; [eapply cancel_fit; eauto; lia|]. rewrite upto_len by lia.
      pose proof (refresh_still (set_log l n)) as [_ _ _ _ _]. 
      assert (Hcm : n_commit (refresh_members (set_log l n)) = n_commit n).
      { unfold refresh_members. destruct (pop_committed _ _ _) as [m u]. destruct (Nat.eqb _ _); [reflexivity|]. rewrite (kp_commit _ _ (hmc_keep _)). reflexivity. }
      rewrite Hcm. lia.
    - injection Ecan as <-. exists A. auto. }
  destruct H1 as (A1 & J1 & C1). destruct (idx =? last_idx (n_log n1) + 1).
  - destruct (negb (beq _ _)); [apply runs_ret|]. apply runs_bind; [eapply log_append_runs; eassumption|].
    intros [n2 [l er]] E2. destruct (log_append_fit sz M L0 _ _ _ _ _ _ J1 C1 E2) as [(A2 & J2 & HA2) [C2 _]].
    destruct er; try apply runs_ret. apply (IH _ _ _ A2); [assumption| |lia]. rewrite C2. destruct HA2 as [[_ ->]|[_ ->]]; rewrite ?llen_app; lia.
  - apply (IH _ _ _ A1); auto. lia.
Qed.

(* --- messages ------------------------------------------------------------------------ *)
Lemma reply_runs to b n : to <> n_me n -> runs (reply to b n).
Proof. intros H. unfold reply, add_msg. apply beq_neq in H. rewrite H. apply runs_ret. Qed.
Lemma add_none_runs m n : runs (add_msg None m n).
Proof. unfold add_msg. destruct (_ && _)%bool; apply runs_ret. Qed.
Lemma election_runs rnd n : runs (election_timeout rnd n).
Proof.
  unfold election_timeout. destruct (negb _); [apply runs_ret|].
  destruct (n_role n); try apply runs_ret; cbv zeta; (apply runs_bind; [apply runs_ret|]; intros; apply add_none_runs).
Qed.
(* who it is and which membership it acts by *)
Record same (n n' : node) : Prop := MkSame { sm_me : n_me n' = n_me n; sm_sm : n_sm n' = n_sm n; sm_mship : mship n' = mship n }.
Lemma same_refl n : same n n. Proof. constructor; reflexivity. Qed.
Lemma same_trans a b c : same a b -> same b c -> same a c. Proof. intros [] []; constructor; congruence. Qed.
Lemma role_same r n : same n (set_role r n). Proof. constructor; reflexivity. Qed.
Lemma add_msg_same to m n n' : add_msg to m n = Ret n' -> same n n' /\ n_role n' = n_role n.
Proof. unfold add_msg. destruct to; [destruct (beq _ _); [discriminate|]|destruct (_ && _)%bool]; intros E; injection E as <-; split; auto; constructor; reflexivity. Qed.

(* the followers of a leader are all members but itself *)
Definition covers (n : node) (fs : list (bytes * repl)) : Prop := forall p, In p (m_all (mship n)) -> p <> n_me n -> In p (map fst fs).
Definition led (n : node) : Prop := match n_role n with Leader fs _ _ => covers n fs | _ => True end.
Lemma led_role n n' : same n n' -> n_role n' = n_role n -> led n -> led n'.
Proof. intros [H1 _ H3] Hr. unfold led. rewrite Hr. destruct (n_role n); auto. unfold covers. now rewrite H1, H3. Qed.
Lemma put_keys k (v : repl) m p : In p (map fst (put k v m)) <-> p = k \/ In p (map fst m).
Proof.
  induction m as [|[k0 v0] m IH]; cbn [put map fst]; [cbn; intuition auto|]. destruct (bcmp k k0) eqn:E; cbn [map fst In].
  - apply bcmp_eq in E. subst k0. intuition auto.
  - intuition auto.
  - rewrite IH. intuition auto.
Qed.
Lemma map_keys f fs : map fst (map_followers f fs) = map fst fs.
Proof. unfold map_followers. rewrite map_map. apply map_ext. reflexivity. Qed.
Lemma append_entries_led p n : p <> n_me n -> led n -> runs (append_entries p n) /\ forall n', append_entries p n = Ret n' -> same n n' /\ led n'.
Proof.
  intros Hp Hl. unfold append_entries. assert (Hsame : runs (Ret n) /\ forall n', Ret n = Ret n' -> same n n' /\ led n').
  { split; [apply runs_ret|]. intros n' E. injection E as <-. split; [apply same_refl|assumption]. }
  destruct (n_role n) as [| |fs hb rel] eqn:Er; auto. destruct (lookup p fs) eqn:El; [|auto]. cbv zeta.
  destruct (negb _); [auto|]. destruct (_ && _)%bool; [auto|]. destruct (_ && _)%bool; [auto|].
  split; [apply reply_runs; exact Hp|]. intros n' E. unfold reply in E. apply add_msg_same in E as [E Hr]. split; [eapply same_trans; [apply role_same|exact E]|].
  eapply led_role; [exact E|exact Hr|]. unfold led in *. rewrite Er in Hl. cbn [set_role n_role]. intros q H1 H2. apply put_keys. right. now apply Hl.
Qed.
Lemma send_all_led n : led n -> runs (send_all n) /\ forall n', send_all n = Ret n' -> same n n' /\ led n'.
Proof.
  intros Hl. unfold send_all.
  enough (H : forall l o, (exists m, o = Ret m /\ same n m /\ led m) ->
    exists m, fold_left (fun o p => let* m := o in if beq p (n_me n) then Ret m else append_entries p m) l o = Ret m /\ same n m /\ led m).
  { destruct (H (m_all (mship n)) (Ret n)) as (m & E & H1 & H2); [exists n; split; [reflexivity|split; [apply same_refl|assumption]]|].
    split; [now exists m|]. intros n' E'. rewrite E in E'. injection E' as <-. auto. }
  induction l as [|p l IH]; intros o Ho; cbn [fold_left]; [exact Ho|]. apply IH. destruct Ho as (m & -> & H1 & H2). cbn.
  destruct (beq p (n_me n)) eqn:Ep; [exists m; auto|]. apply beq_neq in Ep.
  destruct (append_entries_led p m) as [[m' E] H3]; [rewrite (sm_me _ _ H1); exact Ep|assumption|]. destruct (H3 m' E). exists m'. split; [exact E|]. split; [eapply same_trans; eassumption|assumption].
Qed.
Lemma relinq_runs rnd n : runs (try_relinquish rnd n).
Proof.
  unfold try_relinquish. destruct (n_role n); try apply runs_ret. destruct (find _ _) as [p|] eqn:Ef; [|apply runs_ret].
  apply find_some in Ef as [_ Ef]. apply andb_true_iff in Ef as [Ef _]. apply runs_bind; [|intros; apply runs_ret]. apply reply_runs. apply beq_neq. now destruct (beq _ _).
Qed.
Lemma hmc_led n : led (handle_membership_change n) /\ same n (handle_membership_change n).
Proof.
  unfold handle_membership_change. destruct (n_role n) as [| |fs hb rel] eqn:Er; try (split; [unfold led; now rewrite Er|apply same_refl]).
  split; [|apply role_same]. unfold led. cbn [set_role n_role]. intros p H1 H2. cbn [set_role n_me] in H2. change (In p (m_all (mship n))) in H1.
  match goal with |- context [fold_left ?g0 _ _] => set (g := g0) end.
  assert (Hmono : forall l m q, In q (map fst m) -> In q (map fst (fold_left g l m))).
  { induction l as [|x l IH]; intros m q Hq; cbn [fold_left]; [assumption|]. apply IH. unfold g. destruct (_ && _)%bool; [apply put_keys; now right|assumption]. }
  assert (Hall : forall l m, In p l -> In p (map fst (fold_left g l m))).
  { induction l as [|x l IH]; intros m Hin; cbn [fold_left]; [destruct Hin|]. destruct Hin as [->|Hin]; [|now apply IH]. apply Hmono. unfold g.
    apply beq_neq in H2. rewrite H2. cbn [negb andb]. destruct (lookup p m) as [v|] eqn:E; [|apply put_keys; now left].
    apply SMap.lookup_in in E. apply in_map_iff. exists (p, v). auto. }
  specialize (Hall (m_all (mship n)) fs H1). apply in_map_iff in Hall as ([q v] & E & Hin). cbn [fst] in E. subst q.
  apply in_map_iff. exists (p, v). split; [reflexivity|]. apply filter_In. split; [assumption|]. now apply pmem_In.
Qed.

(* --- memberships that can be counted -------------------------------------------------- *)
Definition good (n : node) : Prop := NoDup (m_voting (mship n)) /\ incl (m_voting (mship n)) (m_all (mship n)) /\ 1 <= quorum n.
Lemma quorum_le n : quorum n <= psize (m_voting (mship n)). Proof. unfold quorum, quorum_size. apply N.le_min_l. Qed.
Lemma good_same n n' : same n n' -> good n -> good n'.
Proof. intros [_ H2 H3]. unfold good, quorum. now rewrite H2, H3. Qed.
Lemma kth_runs k l : 1 <= k -> k <= llen l -> runs (kth k l).
Proof.
  intros H1 H2. unfold kth. destruct (k =? 0) eqn:E; [lia|]. destruct (nth_error l (N.to_nat (k - 1))) eqn:En; [apply runs_ret|].
  apply nth_error_None in En. unfold llen in H2. lia.
Qed.
Lemma sort_len l : llen (sort_desc l) = llen l.
Proof.
  unfold llen. f_equal. induction l as [|x l IH]; [reflexivity|]. unfold sort_desc in *. cbn [fold_right length]. rewrite <- IH. generalize (fold_right insert_desc [] l) as r.
  induction r as [|y r IHr]; [reflexivity|]. cbn [insert_desc]. destruct (y <=? x); [reflexivity|]. cbn [length]. now rewrite IHr.
Qed.
Lemma voters_counted f n fs x : good n -> In (n_me n) (m_voting (mship n)) -> covers n fs -> runs (kth (quorum n) (sort_desc (voter_values f n fs ++ [x]))).
Proof.
  intros (H1 & H2 & H3) Hme Hc. apply kth_runs; [assumption|]. rewrite sort_len. unfold voter_values, llen. rewrite app_length, map_length. cbn [length].
  pose proof (quorum_le n) as Hq. unfold psize in Hq.
  set (fl := filter _ fs).
  assert (Hi : incl (filter (fun p => negb (beq p (n_me n))) (m_voting (mship n))) (map fst fl)).
  { intros p Hp. apply filter_In in Hp as [Hp Hn]. assert (Hd : p <> n_me n) by (apply beq_neq; now destruct (beq _ _)).
    pose proof (Hc p (H2 p Hp) Hd) as Hin. apply in_map_iff in Hin as ([q v] & E & Hin). cbn [fst] in E. subst q. apply in_map_iff. exists (p, v). split; [reflexivity|].
    apply filter_In. split; [assumption|]. cbn [fst]. now apply pmem_In. }
  assert (Hl : (length (m_voting (mship n)) <= length (filter (fun p => negb (beq p (n_me n))) (m_voting (mship n))) + 1)%nat).
  { clear - H1. induction (m_voting (mship n)) as [|p l IH]; [cbn; lia|]. inversion H1 as [|? ? Hn Hd]; subst. cbn [filter]. destruct (beq p (n_me n)) eqn:E; cbn [negb length].
    - apply beq_eq in E. subst p. enough (filter (fun p => negb (beq p (n_me n))) l = l) as -> by lia. clear - Hn.
      induction l as [|q l IHl]; [reflexivity|]. cbn [filter]. destruct (beq q (n_me n)) eqn:E; [apply beq_eq in E; subst; exfalso; apply Hn; now left|].
      cbn [negb]. f_equal. apply IHl. intros X. apply Hn. now right.
    - specialize (IH Hd). lia. }
  pose proof (NoDup_incl_length (NoDup_filter _ H1) Hi) as Hlen. rewrite map_length in Hlen. lia.
Qed.
(* raising the commit index leaves the membership as it is *)
Lemma pop_mship c : forall u m, last (map snd (snd (pop_committed c m u))) (fst (pop_committed c m u)) = last (map snd u) m.
Proof.
  induction u as [|[j x] u IH]; intros m; cbn [pop_committed]; [reflexivity|]. destruct (j <=? c); [|reflexivity]. rewrite IH. cbn [map snd].
  generalize (map snd u) as l. intros l. revert x. induction l as [|y l IHl]; intros x; [reflexivity|]. cbn [last]. destruct l as [|z l]; [reflexivity|]. exact (IHl x).
Qed.
Lemma pop_incl c : forall u m, incl (snd (pop_committed c m u)) u.
Proof. induction u as [|[j x] u IH]; intros m; cbn [pop_committed]; [apply incl_refl|]. destruct (j <=? c); [|apply incl_refl]. apply incl_tl, IH. Qed.
Lemma no_cancel b r : (forall j x, In (j, x) r -> j <= b) -> pop_cancelled b r = r.
Proof. destruct r as [|[j x] r]; [reflexivity|]. intros H. cbn [pop_cancelled]. specialize (H j x (or_introl eq_refl)). destruct (b <? j) eqn:E; [lia|reflexivity]. Qed.
Lemma refresh_same n A c : J n A -> n_commit n <= llen A -> led n -> same n (refresh_members (set_commit c n)) /\ led (refresh_members (set_commit c n)).
Proof.
  intros HJ Hc Hl. unfold refresh_members. cbn [set_commit n_commit n_mem n_unc n_log].
  pose proof (pop_mship c (n_unc n) (n_mem n)) as Hm. pose proof (pop_incl c (n_unc n) (n_mem n)) as Hi. destruct (pop_committed c (n_mem n) (n_unc n)) as [m u]. cbn [fst snd] in *.
  rewrite (st_last _ _ _ (j_st _ _ _ _ HJ) (j_al _ _ _ _ HJ)). rewrite no_cancel.
  2:{ intros j x Hj. apply in_rev, Hi in Hj. destruct (j_fit _ _ _ _ HJ) as [_ Hu]. rewrite Hu in Hj. apply mems_ge in Hj. unfold llen in *. rewrite skipn_length in Hj. lia. }
  rewrite rev_involutive. destruct (Nat.eqb _ _); [split; [constructor; reflexivity|exact Hl]|].
  match goal with |- context [handle_membership_change ?z] => destruct (hmc_led z) as [H1 H2]; split; [|exact H1]; eapply same_trans; [|exact H2] end.
  constructor; [reflexivity|reflexivity|]. unfold mship. cbn [set_members n_unc n_mem]. exact Hm.
Qed.
Lemma mark_led n : led n -> same n (mark_update n) /\ led (mark_update n).
Proof.
  unfold mark_update, led. destruct (n_role n) as [| |fs hb rel] eqn:Er; intros H; try (rewrite Er; split; [apply same_refl|exact I]).
  split; [apply role_same|]. cbn [set_role n_role]. intros p H1 H2. rewrite map_keys. now apply H.
Qed.
(* a leader, or who may become one: votes, and can count *)
Definition able (n : node) : Prop := match n_role n with Follower _ _ => True | _ => good n /\ In (n_me n) (m_voting (mship n)) end.
Lemma able_same n n' : same n n' -> (forall l e, n_role n = Follower l e -> exists l' e', n_role n' = Follower l' e') -> able n -> able n'.
Proof.
  intros Hs Hr Ha. unfold able in *. pose proof (fun G => good_same _ _ Hs G) as Hg. destruct Hs as [H1 _ H3].
  destruct (n_role n) eqn:Er.
  - destruct (Hr _ _ eq_refl) as (l' & e' & ->). exact I.
  - rewrite H1, H3. destruct (n_role n'); [exact I| |]; destruct Ha; auto.
  - rewrite H1, H3. destruct (n_role n'); [exact I| |]; destruct Ha; auto.
Qed.
Lemma advance_led n A : J n A -> n_commit n <= llen A -> led n -> able n -> runs (advance_commit n) /\ forall n', advance_commit n = Ret n' -> same n n' /\ led n'.
Proof.
  intros HJ Hc Hl Ha. unfold advance_commit, able, led in *. destruct (n_role n) as [| |fs hb rel] eqn:Er;
    try (split; [apply runs_ret|intros n' E; injection E as <-; split; [apply same_refl|rewrite Er; exact I]]).
  destruct Ha as [Hg Hme].
  destruct (voters_counted f_match n fs (last_idx (n_log n)) Hg Hme Hl) as [np Enp]. rewrite Enp. cbn. set (n1 := if n_promise n <? np then set_promise np n else n).
  assert (K1 : keep n n1) by (unfold n1; destruct (_ <? _); constructor; reflexivity). assert (S1 : same n n1) by (unfold n1; destruct (_ <? _); constructor; reflexivity).
  assert (L1 : led n1) by (apply (led_role n); [assumption|unfold n1; destruct (_ <? _); reflexivity|unfold led; rewrite Er; exact Hl]).
  destruct (voters_counted f_promise n fs (n_promise n1) Hg Hme Hl) as [nc Enc].
  assert (Eq : quorum n1 = quorum n) by (unfold quorum; now rewrite (sm_sm _ _ S1), (sm_mship _ _ S1)). rewrite Eq, Enc. cbn.
  split; [apply runs_ret|]. intros n' E. injection E as <-.
  set (n2 := if n_commit n1 <? nc then refresh_members (set_commit nc n1) else n1).
  assert (H2 : same n n2 /\ led n2).
  { unfold n2. destruct (n_commit n1 <? nc); [|auto]. destruct (refresh_same n1 A nc) as [X1 X2]; [eapply keep_J; eassumption|rewrite (kp_commit _ _ K1); assumption|assumption|].
    split; [eapply same_trans; eassumption|assumption]. }
  destruct H2 as [X1 X2]. destruct (_ || _)%bool; [|auto]. destruct (mark_led n2 X2). split; [eapply same_trans; eassumption|assumption].
Qed.
Lemma client_none_same n A n' l er : J n A -> n_commit n <= llen A -> client_request sz hmac INone n = Ret (n', (l, er)) -> same n n' /\ n_role n' = n_role n.
Proof.
  intros HJ Hc E. unfold client_request in E. destruct (n_role n) as [| |fs hb rel] eqn:Er; try (injection E as <- _ _; split; [apply same_refl|assumption]).
  destruct rel; [injection E as <- _ _; split; [apply same_refl|assumption]|]. unfold log_append in E. cbn [e_inner] in E. cbv zeta in E.
  apply bind_inv in E as ([l1 r1] & _ & E). destruct r1; injection E as <- _ _; (split; [constructor; reflexivity|exact Er]).
Qed.
Lemma leader_led n A : J n A -> n_commit n <= llen A -> led n -> runs (maybe_become_leader sz hmac n) /\
  forall n', maybe_become_leader sz hmac n = Ret n' -> same n n' /\ led n' /\ (forall l e, n_role n = Follower l e -> n_role n' = Follower l e).
Proof.
  intros HJ Hc Hl. unfold maybe_become_leader. assert (Hno : runs (Ret n) /\ forall n', Ret n = Ret n' -> same n n' /\ led n' /\ (forall l e, n_role n = Follower l e -> n_role n' = Follower l e)).
  { split; [apply runs_ret|]. intros n' E. injection E as <-. split; [apply same_refl|]. auto. }
  destruct (n_role n) as [|votes el|fs hb rel] eqn:Er; auto. destruct (_ <? _); [auto|]. cbv zeta. clear Hno.
  set (fs := fold_left _ _ _). assert (J1 : J (set_role (Leader fs 0 false) n) A) by (eapply keep_J; [apply role_keep|assumption]).
  assert (Hcov : covers n fs).
  { unfold fs. match goal with |- context [fold_left ?g0 _ _] => set (g := g0) end. intros p H1 H2.
    assert (Hmono : forall l m q, In q (map fst m) -> In q (map fst (fold_left g l m))).
    { induction l as [|x l IH]; intros m q Hq; cbn [fold_left]; [assumption|]. apply IH. unfold g. destruct (beq _ _); [assumption|apply put_keys; now right]. }
    assert (Hall : forall l m, In p l -> In p (map fst (fold_left g l m))).
    { induction l as [|x l IH]; intros m Hin; cbn [fold_left]; [destruct Hin|]. destruct Hin as [->|Hin]; [|now apply IH]. apply Hmono. unfold g.
      apply beq_neq in H2. rewrite H2. apply put_keys. now left. }
    now apply Hall. }
  split.
  - apply runs_bind; [eapply client_request_runs; [exact J1|exact Hc]|]. intros [n1 x] _. apply runs_ret.
  - intros n' E. apply bind_inv in E as ([n1 [l er]] & E1 & E). injection E as <-. destruct (client_none_same _ A _ _ _ J1 Hc E1) as [S1 R1].
    assert (S0 : same n n1) by (eapply same_trans; [apply role_same|exact S1]). split; [assumption|]. split; [|discriminate].
    unfold led. rewrite R1. cbn [set_role n_role]. unfold covers. rewrite (sm_me _ _ S0), (sm_mship _ _ S0). exact Hcov.
Qed.
Lemma change_state_led ok rnd n A : J n A -> n_commit n <= llen A -> led n -> able n ->
  runs (change_state sz hmac ok rnd n) /\ forall n', change_state sz hmac ok rnd n = Ret n' -> led n'.
Proof.
  intros HJ Hc Hl Ha. unfold change_state.
  destruct (leader_led n A HJ Hc Hl) as [[n1 E1] H1]. destruct (H1 n1 E1) as (S1 & L1 & F1). rewrite E1. cbn.
  destruct (leader_fit sz hmac M L0 n A n1 HJ Hc E1) as (A1 & (J1 & P1 & _) & C1).
  assert (Hc1 : n_commit n1 <= llen A1) by (rewrite C1; apply prefix_len in P1; unfold llen in *; lia).
  assert (A1' : able n1).
  { apply (able_same n); [assumption| |assumption]. intros l e E. exists l, e. now apply F1. }
  assert (H2 : exists n2, (if ok then advance_commit n1 else Ret n1) = Ret n2 /\ led n2).
  { destruct ok; [|exists n1; auto]. destruct (advance_led n1 A1 J1 Hc1 L1 A1') as [[n2 E2] H2]. exists n2. split; [assumption|]. apply (H2 n2 E2). }
  destruct H2 as (n2 & E2 & L2). rewrite E2. cbn. destruct (send_all_led n2 L2) as [[n3 E3] H3]. destruct (H3 n3 E3) as [_ L3]. rewrite E3. cbn.
  assert (Hr : runs (try_relinquish rnd n3) /\ forall n', try_relinquish rnd n3 = Ret n' -> led n').
  { split; [apply relinq_runs|]. intros n'. unfold try_relinquish. destruct (n_role n3) eqn:Er; try (intros E; injection E as <-; assumption).
    destruct (find _ _); [|intros E; injection E as <-; assumption]. intros E. apply bind_inv in E as (x & _ & E). injection E as <-. exact I. }
  assert (Hn : runs (Ret n3) /\ forall n', Ret n3 = Ret n' -> led n') by (split; [apply runs_ret|intros n' E; injection E as <-; assumption]).
  destruct (n_role n3) as [| |fs hb rel]; auto. destruct rel; auto.
Qed.

(* --- any call -------------------------------------------------------------------------- *)
Definition good_m (sm : N) (m : members) : Prop := NoDup (m_voting m) /\ incl (m_voting m) (m_all m) /\ 1 <= quorum_size (psize (m_voting m)) sm.
Record hale (n : node) (A : list entry) : Prop := MkHale { ha_J : J n A; ha_c : n_commit n <= llen A; ha_led : led n; ha_good : good_m (n_sm n) (mship n);
  ha_vote : kind n <> KF -> In (n_me n) (m_voting (mship n)) }.
Lemma able_iff n : able n <-> (kind n <> KF -> good n /\ In (n_me n) (m_voting (mship n))).
Proof.
  unfold able, kind. destruct (n_role n); split; auto.
  - intros _ H. congruence.
  - intros H. apply H. discriminate.
  - intros H. apply H. discriminate.
Qed.
Lemma hale_able n A : hale n A -> able n.
Proof. intros [_ _ _ H1 H2]. apply able_iff. intros Hk. split; [exact H1|auto]. Qed.
Record fair (n : node) (A : list entry) : Prop := MkFair { fa_J : J n A; fa_c : n_commit n <= llen A; fa_led : led n; fa_able : able n }.
Lemma hale_fair n A : hale n A -> fair n A.
Proof. intros H. constructor; [apply H|apply H|apply H|eapply hale_able; exact H]. Qed.
Lemma change_fair ok rnd n A : fair n A -> runs (change_state sz hmac ok rnd n) /\ forall n', change_state sz hmac ok rnd n = Ret n' -> led n'.
Proof. intros []. eapply change_state_led; eassumption. Qed.
Lemma change_hale ok rnd n A : hale n A -> runs (change_state sz hmac ok rnd n) /\ forall n', change_state sz hmac ok rnd n = Ret n' -> led n'.
Proof. intros H. eapply change_state_led; [apply H|apply H|apply H|eapply hale_able; exact H]. Qed.
Lemma hale_keep n n' A : hale n A -> keep n n' -> same n n' -> led n' -> (kind n' <> KF -> kind n <> KF \/ In (n_me n) (m_voting (mship n))) -> hale n' A.
Proof.
  intros [H1 H2 H3 H4 H5] K S L F. constructor; auto.
  - eapply keep_J; eassumption.
  - now rewrite (kp_commit _ _ K).
  - now rewrite (sm_sm _ _ S), (sm_mship _ _ S).
  - intros Hk. rewrite (sm_me _ _ S), (sm_mship _ _ S). destruct (F Hk); auto.
Qed.
Lemma election_hale rnd n n' A : hale n A -> election_timeout rnd n = Ret n' -> hale n' A.
Proof.
  intros H E. pose proof (election_keep _ _ _ E) as K. unfold election_timeout in E. destruct (voting n) eqn:Ev; cbn [negb] in E.
  - assert (Hv : In (n_me n) (m_voting (mship n))) by (apply pmem_In; exact Ev).
    assert (Hgo : forall r n0, (let n1 := set_role (Candidate [n_me n] rnd) (set_voted (Some (n_me n)) (set_term (n_term n + 1) n)) in
        let* b := vote_request n1 in add_msg None (RMsg (n_group n1) (n_term n1) b) n1) = Ret n0 -> n_role n = r -> keep n n0 -> hale n0 A).
    { intros r n0 E0 _ K0. cbv zeta in E0. apply bind_inv in E0 as (b & _ & E0). apply add_msg_same in E0 as [S0 R0].
      eapply hale_keep; [exact H|exact K0| | |auto].
      - eapply same_trans; [|exact S0]. constructor; reflexivity.
      - unfold led. rewrite R0. exact I. }
    destruct (n_role n) eqn:Er; [eapply Hgo; eauto|eapply Hgo; eauto|injection E as <-; exact H].
  - injection E as <-. destruct (n_role n) eqn:Er; [|exact H|exact H]. eapply hale_keep; [exact H|apply role_keep|apply role_same|exact I|intros X; now destruct X].
Qed.
Lemma seen_hale from n A : hale n A -> hale (seen_now from n) A.
Proof.
  intros H. eapply hale_keep; [exact H|apply seen_keep| | |rewrite (sl_kind _ _ (seen_now_still from n)); auto].
  - unfold seen_now. destruct (n_role n); try apply same_refl. destruct (lookup _ _); [apply role_same|apply same_refl].
  - pose proof (ha_led _ _ H) as Hl. unfold seen_now. destruct (n_role n) eqn:Er; try exact Hl. destruct (lookup from _) eqn:E; [|exact Hl].
    unfold led in *. rewrite Er in Hl. cbn [set_role n_role]. intros p H1 H2. apply put_keys. right. now apply Hl.
Qed.
Lemma update_hale rnd t n A : hale n A -> hale (update_term rnd t n) A.
Proof.
  intros H. unfold update_term. destruct (_ <=? _); [exact H|]. eapply hale_keep; [exact H|constructor; reflexivity|constructor; reflexivity|exact I|intros X; now destruct X].
Qed.
Lemma reply_hale to b n n' A : hale n A -> reply to b n = Ret n' -> hale n' A.
Proof.
  intros H E. pose proof (reply_keep _ _ _ _ E) as K. pose proof (sl_kind _ _ (reply_still _ _ _ _ E)) as Hk. unfold reply in E. apply add_msg_same in E as [S R].
  eapply hale_keep; [exact H|exact K|exact S| |rewrite Hk; auto]. eapply led_role; [exact S|exact R|apply H].
Qed.
Lemma follower_hale r n A : hale n A -> kind (set_role r n) = KF -> hale (set_role r n) A.
Proof.
  intros H Hk. eapply hale_keep; [exact H|apply role_keep|apply role_same| |congruence]. unfold led, kind in *. destruct (n_role (set_role r n)); auto; discriminate.
Qed.
Lemma process_kind es : forall idx p n n' p', process_entries sz hmac es idx p n = Ret (n', p') -> kind n' = kind n.
Proof.
  induction es as [|e es IH]; intros idx p n n' p' E; cbn [process_entries] in E; [injection E as <- _; reflexivity|]. cbv zeta in E.
  destruct (_ && (_ || _))%bool; [injection E as <- _; reflexivity|].
  destruct (if (_ && _)%bool then _ else _) as [n1|] eqn:Ec; [|injection E as <- _; reflexivity].
  assert (K1 : kind n1 = kind n).
  { destruct (_ && _)%bool; [|injection Ec as <-; reflexivity]. destruct (cancel_from _ _) as [l r]. destruct r; try discriminate. injection Ec as <-.
    rewrite (sl_kind _ _ (refresh_still _)). reflexivity. }
  destruct (idx =? _); [|apply IH in E; congruence]. destruct (negb (beq _ _)); [injection E as <- _; exact K1|].
  apply bind_inv in E as ([n2 [l er]] & E2 & E). apply log_append_shape in E2 as (K2 & _). destruct er; try (injection E as <- _; congruence). apply IH in E. congruence.
Qed.
(* what a leader's entry does to its membership *)
Lemma log_append_led e n n' l er : led n -> log_append sz e n = Ret (n', (l, er)) ->
  n_me n' = n_me n /\ n_sm n' = n_sm n /\ led n' /\
  (mship n' = mship n \/ exists g m, e_inner e = IMember g /\ from_proto g = (m, M_OK) /\ mship n' = m).
Proof.
  intros Hl E. unfold log_append in E. cbv zeta in E.
  assert (Hno : forall l0 r, Ret (set_log l0 n, r) = Ret (n', (l, er)) -> n_me n' = n_me n /\ n_sm n' = n_sm n /\ led n' /\
    (mship n' = mship n \/ exists g m, e_inner e = IMember g /\ from_proto g = (m, M_OK) /\ mship n' = m)).
  { intros l0 r X. injection X as <- _. split; [reflexivity|]. split; [reflexivity|]. split; [exact Hl|now left]. }
  destruct (e_inner e) as [|d|g|mm]; try (apply bind_inv in E as ([l0 r0] & _ & E); destruct r0; eapply Hno; exact E).
  destruct (from_proto g) as [m x] eqn:Eg. destruct x; try (injection E as <- _ _; split; [reflexivity|]; split; [reflexivity|]; split; [exact Hl|now left]).
  apply bind_inv in E as ([l0 r0] & _ & E). destruct r0; try (eapply Hno; exact E). apply bind_inv in E as (n2 & E2 & E). injection E as <- _ _.
  unfold add_uncommitted in E2. cbn [set_log n_unc n_mem] in E2.
  assert (Hadd : forall u, Ret (handle_membership_change (set_members (n_mem n) (u ++ [(last_idx l0, m)]) (set_log l0 n))) = Ret n2 ->
     n_me n2 = n_me n /\ n_sm n2 = n_sm n /\ led n2 /\ (mship n2 = mship n \/ exists g0 m0, IMember g = IMember g0 /\ from_proto g0 = (m0, M_OK) /\ mship n2 = m0)).
  { intros u X. injection X as <-. destruct (hmc_led (set_members (n_mem n) (u ++ [(last_idx l0, m)]) (set_log l0 n))) as [X1 [X2 X3 X4]].
    split; [exact X2|]. split; [exact X3|]. split; [exact X1|]. right. exists g, m. split; [reflexivity|]. split; [assumption|]. rewrite X4. unfold mship. cbn [set_members n_unc n_mem].
    rewrite map_app. cbn [map snd]. apply last_last. }
  destruct (n_unc n) as [|u us]; [apply (Hadd []); exact E2|]. destruct (_ <? _); [apply (Hadd (u :: us)); exact E2|discriminate].
Qed.
Lemma request_hale x n A n1 l er : hale n A ->
  (forall g m, x = IMember g -> from_proto g = (m, M_OK) -> good_m (n_sm n) m /\ In (n_me n) (m_voting m)) ->
  client_request sz hmac x n = Ret (n1, (l, er)) -> exists A1, hale n1 A1.
Proof.
  intros H Hx E. destruct (client_request_fit sz hmac M L0 _ _ A _ _ _ (ha_J _ _ H) (ha_c _ _ H) E) as (A1 & (J1 & P1 & _) & C1). exists A1.
  destruct (client_request_shape sz hmac _ _ _ _ _ E) as (Hk & _). unfold client_request in E.
  assert (Hno : Ret (n, (no_loc, RE_NotLeader)) = Ret (n1, (l, er)) -> hale n1 A1).
  { intros X. injection X as <- _ _. destruct H. constructor; auto. apply prefix_len in P1. unfold llen in *. lia. }
  destruct (n_role n) as [| |fs hb rel] eqn:Er; auto. destruct rel; auto. apply log_append_led in E as (E1 & E2 & E3 & E4); [|apply H].
  assert (Hc : n_commit n1 <= llen A1) by (rewrite C1; pose proof (ha_c _ _ H); apply prefix_len in P1; unfold llen in *; lia).
  constructor; auto; rewrite ?E1, ?E2; destruct E4 as [->|(g & m & Ex & Em & ->)]; try apply H.
  - cbn [e_inner] in Ex. apply (Hx g m); assumption.
  - intros X. apply H. congruence.
  - intros _. cbn [e_inner] in Ex. apply (Hx g m); assumption.
Qed.
Lemma client_kind x n n1 l er : client_request sz hmac x n = Ret (n1, (l, er)) -> kind n1 = kind n.
Proof. intros E. now apply client_request_shape in E as (H & _). Qed.

Lemma hmc_me n : n_me (handle_membership_change n) = n_me n. Proof. apply (sm_me _ _ (proj2 (hmc_led n))). Qed.
Lemma refresh_me n : n_me (refresh_members n) = n_me n.
Proof. unfold refresh_members. destruct (pop_committed _ _ _) as [m u]. destruct (Nat.eqb _ _); [reflexivity|]. now rewrite hmc_me. Qed.
Lemma log_append_me e n n' l er : log_append sz e n = Ret (n', (l, er)) -> n_me n' = n_me n.
Proof.
  intros E. unfold log_append in E. cbv zeta in E.
  destruct (e_inner e) as [|d|g|mm]; try (apply bind_inv in E as ([l0 r0] & _ & E); destruct r0; injection E as <- _ _; reflexivity).
  destruct (from_proto g) as [m x]. destruct x; try (injection E as <- _ _; reflexivity).
  apply bind_inv in E as ([l0 r0] & _ & E). destruct r0; try (injection E as <- _ _; reflexivity). apply bind_inv in E as (n2 & E2 & E). injection E as <- _ _.
  unfold add_uncommitted in E2. destruct (n_unc _); [injection E2 as <-; now rewrite hmc_me|]. destruct (_ <? _); [injection E2 as <-; now rewrite hmc_me|discriminate].
Qed.
Lemma process_me es : forall idx p n n' p', process_entries sz hmac es idx p n = Ret (n', p') -> n_me n' = n_me n.
Proof.
  induction es as [|e es IH]; intros idx p n n' p' E; cbn [process_entries] in E; [injection E as <- _; reflexivity|]. cbv zeta in E.
  destruct (_ && (_ || _))%bool; [injection E as <- _; reflexivity|].
  destruct (if (_ && _)%bool then _ else _) as [n1|] eqn:Ec; [|injection E as <- _; reflexivity].
  assert (K1 : n_me n1 = n_me n).
  { destruct (_ && _)%bool; [|injection Ec as <-; reflexivity]. destruct (cancel_from _ _) as [l r]. destruct r; try discriminate. injection Ec as <-. now rewrite refresh_me. }
  destruct (idx =? _); [|apply IH in E; congruence]. destruct (negb (beq _ _)); [injection E as <- _; exact K1|].
  apply bind_inv in E as ([n2 [l er]] & E2 & E). apply log_append_me in E2. destruct er; try (injection E as <- _; congruence). apply IH in E. congruence.
Qed.
Definition too_far (n : node) (A : list entry) (o : rop) : Prop :=
  exists ok1 ok2 rnd from m idx lst p h, o = OReceive ok1 ok2 rnd from m /\ is_leader n = true /\ m_term m = n_term n /\ m_body m = AppResp true idx lst p h /\ llen A < idx.

Lemma append_request_fair ok rnd t prev pterm commit es promise from n A : hale n A -> from <> n_me n ->
  exists n2 A2, handle_append_request sz hmac ok rnd t prev pterm commit es promise from n = Ret n2 /\ fair n2 A2.
Proof.
  intros H Hf. 
  assert (Hrep : forall b n2, hale n2 A -> n_me n2 = n_me n -> exists n3 A3, reply from b n2 = Ret n3 /\ fair n3 A3).
  { intros b n2 H2 Hm. destruct (reply_runs from b n2) as [n3 E3]; [congruence|]. exists n3, A. split; [assumption|]. apply hale_fair. eapply reply_hale; eassumption. }
  enough (Hx : runs (handle_append_request sz hmac ok rnd t prev pterm commit es promise from n) /\
    forall n2, handle_append_request sz hmac ok rnd t prev pterm commit es promise from n = Ret n2 -> hale n2 A \/ kind n2 = KF).
  { destruct Hx as [[n2 E2] Hk]. exists n2. destruct (append_request_fit sz hmac M L0 _ _ _ _ _ _ _ _ _ _ A _ (ha_J _ _ H) (ha_c _ _ H) E2) as (A2 & J2 & _ & _ & C2).
    destruct (Hk n2 E2) as [H2|K2]; [exists A; split; [assumption|now apply hale_fair]|]. exists A2. split; [assumption|]. unfold kind in K2. constructor; auto.
    - unfold led. destruct (n_role n2); auto. discriminate.
    - unfold able. destruct (n_role n2); auto; discriminate. }
  unfold handle_append_request. cbv zeta. destruct (n_term n <? t); [split; [apply runs_ret|intros n2 E; injection E as <-; now left]|].
  assert (Hr : forall b n2, n_me n2 = n_me n -> hale n2 A -> runs (reply from b n2) /\ forall n3, reply from b n2 = Ret n3 -> hale n3 A \/ kind n3 = KF).
  { intros b n2 Hm H2. split; [apply reply_runs; congruence|]. intros n3 E. left. eapply reply_hale; eassumption. }
  destruct (t <? n_term n); [apply Hr; auto|].
  assert (H0 : hale (set_role (Follower (Some from) rnd) n) A) by (apply follower_hale; [assumption|reflexivity]).
  set (n0 := set_role (Follower (Some from) rnd) n) in *.
  match goal with |- runs (match n_role n with Follower _ _ => ?x | _ => _ end) /\ _ => assert (Hgo : runs x /\ forall n2, x = Ret n2 -> hale n2 A \/ kind n2 = KF) end.
  { destruct (negb _); [apply Hr; [reflexivity|exact H0]|].
    assert (Hi : 0 < prev + 1) by lia. destruct (process_runs es (prev + 1) prev n0 A (ha_J _ _ H0) (ha_c _ _ H0) Hi) as [[n1 pr] E1]. rewrite E1. cbn [bind].
    pose proof (process_kind _ _ _ _ _ _ E1) as K1. change (kind n0) with KF in K1. destruct (_ && negb ok)%bool; [split; [apply runs_ret|intros n2 E; injection E as <-; now right]|].
    pose proof (process_me _ _ _ _ _ _ E1) as M1.
    match goal with |- runs (reply _ _ ?z) /\ _ => assert (Hz : n_me z = n_me n /\ kind z = KF) end.
    { set (z1 := if n_promise n1 <? _ then _ else n1). assert (Hz1 : n_me z1 = n_me n /\ kind z1 = KF) by (unfold z1; destruct (_ <? _); (split; [exact M1|exact K1])).
      destruct (n_commit z1 <? _); [|exact Hz1]. rewrite refresh_me, (sl_kind _ _ (refresh_still _)). exact Hz1. }
    destruct Hz as [Z1 Z2]. split; [apply reply_runs; congruence|]. intros n2 E. right. rewrite (sl_kind _ _ (reply_still _ _ _ _ E)). exact Z2. }
  destruct (n_role n) eqn:Er; [exact Hgo|exact Hgo|]. split; [apply runs_ret|]. intros n2 E. injection E as <-. now left.
Qed.
Lemma classic_far n A ok1 ok2 rnd from m s midx mlast mp mh : m_body m = AppResp s midx mlast mp mh ->
  too_far n A (OReceive ok1 ok2 rnd from m) \/ (is_leader n = true -> m_term m = n_term n -> s = true -> midx <= llen A).
Proof.
  intros Eb. destruct (is_leader n) eqn:El; [|right; discriminate]. destruct (N.eq_dec (m_term m) (n_term n)) as [Et|Et]; [|right; intros; contradiction].
  destruct s; [|right; intros; discriminate]. destruct (N.le_gt_cases midx (llen A)); [right; auto|]. left.
  exists ok1, ok2, rnd, from, m, midx, mlast, mp, mh. auto.
Qed.
Lemma append_response_hale t s midx mlast mp mh from n A n2 : hale n A -> handle_append_response t s midx mlast mp mh from n = Ret n2 -> hale n2 A.
Proof.
  intros H E. unfold handle_append_response in E. destruct (negb _); [injection E as <-; exact H|]. destruct (n_role n) as [| |fs hb rel] eqn:Er; try (injection E as <-; exact H).
  destruct (lookup from fs) as [f|]; [|injection E as <-; exact H].
  assert (Hp : forall f' , hale (set_role (Leader (put from f' fs) hb rel) n) A).
  { intros f'. eapply hale_keep; [exact H|apply role_keep|apply role_same| |intros _; left; unfold kind; rewrite Er; discriminate].
    pose proof (ha_led _ _ H) as Hl. unfold led in *. rewrite Er in Hl. cbn [set_role n_role]. intros p H1 H2. apply put_keys. right. now apply Hl. }
  destruct s; cbv zeta in E; [destruct (match at_idx _ _ with Some e => _ | None => _ end); [injection E as <-; apply Hp|discriminate]|injection E as <-; apply Hp].
Qed.
Lemma append_response_fair n A rnd m from s midx mlast mp mh : hale n A -> m_body m = AppResp s midx mlast mp mh -> validate_msg m from n = Ret RE_OK ->
  (is_leader n = true -> m_term m = n_term n -> s = true -> midx <= llen A) ->
  exists n2 A2, handle_append_response (m_term m) s midx mlast mp mh from (seen_now from (update_term rnd (m_term m) n)) = Ret n2 /\ fair n2 A2.
Proof.
  intros H Eb Ev Hle. set (nu := seen_now from (update_term rnd (m_term m) n)).
  assert (Hu : hale nu A) by (apply seen_hale, update_hale, H).
  enough (Hr : runs (handle_append_response (m_term m) s midx mlast mp mh from nu)).
  { destruct Hr as [n2 E2]. exists n2, A. split; [assumption|]. apply hale_fair. eapply append_response_hale; eassumption. }
  unfold handle_append_response. destruct (m_term m =? n_term nu) eqn:Et; cbn [negb]; [|apply runs_ret]. destruct (n_role nu) as [| |fs hb rel] eqn:Er; try apply runs_ret.
  destruct (lookup from fs); [|apply runs_ret]. destruct s; [|apply runs_ret]. cbv zeta.
  assert (Hlog : n_log nu = n_log n) by (rewrite <- (kp_log _ _ (update_keep rnd (m_term m) n)); apply (kp_log _ _ (seen_keep from _))).
  assert (Hl : is_leader n = true /\ n_term nu = n_term n).
  { assert (X : is_leader (update_term rnd (m_term m) n) = true) by (rewrite <- (still_leader _ _ (seen_now_still from _)); fold nu; unfold is_leader; now rewrite Er).
    assert (Y : n_term nu = n_term (update_term rnd (m_term m) n)) by apply (sl_term _ _ (seen_now_still from _)). rewrite Y.
    unfold update_term in X |- *. destruct (_ <=? _); [auto|discriminate X]. }
  destruct Hl as [Hl Ht]. assert (Hm : midx <= llen A) by (apply Hle; auto; lia).
  rewrite Hlog. destruct (at_idx (n_log n) midx) as [e|] eqn:Ea.
  - unfold validate_msg in Ev. rewrite Eb in Ev. destruct (negb _); [discriminate|]. destruct (negb _); [discriminate|]. apply bind_inv in Ev as (er & Ev & E2). destruct er; try discriminate E2. clear E2.
    unfold check_log_hash in Ev. cbv zeta in Ev. pose proof (ha_J _ _ H) as HJ. pose proof (st_at_some _ _ _ _ _ (j_st _ _ _ _ HJ) Ea) as Hn. apply nth_entry_len in Hn.
    destruct (midx =? 0) eqn:E0; [lia|]. destruct (midx <? oldest_idx (n_log n)); [discriminate|].
    rewrite (st_last _ _ _ (j_st _ _ _ _ HJ) (j_al _ _ _ _ HJ)) in Ev. destruct (llen A <? midx) eqn:E1; [lia|]. rewrite Ea in Ev. cbn [N.eqb negb andb] in Ev.
    destruct (beq mh (e_hash e)); [apply runs_ret|discriminate].
  - rewrite (st_last _ _ _ (j_st _ _ _ _ (ha_J _ _ H)) (j_al _ _ _ _ (ha_J _ _ H))). destruct (midx <=? llen A) eqn:E1; [apply runs_ret|lia].
Qed.
Lemma rstep_runs n A o : hale n A ->
  (forall ok rnd g m, o = ORequest ok rnd (IMember g) -> from_proto g = (m, M_OK) -> good_m (n_sm n) m) ->
  o <> OReset (n_me n) -> (forall ok1 ok2 rnd from m, o = OReceive ok1 ok2 rnd from m -> from <> n_me n) ->
  (too_far n A o \/ runs (rstep sz hmac n o)) /\ forall n' a, rstep sz hmac n o = Ret (n', a) -> led n'.
Proof.
  intros H Hreq Hres Hfrom. pose proof (ha_J _ _ H) as HJ. pose proof (ha_c _ _ H) as Hc.
  assert (Hcs : forall ok rnd n2 A2, fair n2 A2 -> (too_far n A o \/ runs (let* n' := change_state sz hmac ok rnd n2 in Ret (sent n' None None))) /\
    forall n' a, (let* n' := change_state sz hmac ok rnd n2 in Ret (sent n' None None)) = Ret (n', a) -> led n').
  { intros ok rnd n2 A2 H2. destruct (change_fair ok rnd n2 A2 H2) as [H3 H4]. split; [right; apply runs_bind; [exact H3|intros; apply runs_ret]|].
    intros n' a E. apply bind_inv in E as (n3 & E3 & E). unfold sent in E. injection E as <- _. exact (H4 n3 E3). }
  assert (Hret : (too_far n A o \/ runs (Ret (sent n None None))) /\ forall n' a, Ret (sent n None None) = Ret (n', a) -> led n').
  { split; [right; apply runs_ret|]. intros n' a E. unfold sent in E. injection E as <- _. apply H. }
  destruct o as [ok rnd|ok1 ok2 rnd from m|id|c|ok rnd|ok rnd x|]; cbn [rstep].
  - unfold timer_tick.
    match goal with |- context [bind (bind ?f _) _] => assert (H1 : exists n1, f = Ret n1 /\ hale n1 A) end.
    { pose proof (ha_led _ _ H) as Hl. unfold led in Hl. destruct (n_role n) as [l e|v e|fs hb rel] eqn:Er; cbv zeta.
      - assert (H0 : hale (set_role (Follower l (e - 1)) n) A) by (apply follower_hale; [assumption|reflexivity]).
        destruct (_ <=? _)%Z; [|eauto]. destruct (election_runs rnd (set_role (Follower l (e - 1)) n)) as [n1 E1]. exists n1. split; [assumption|]. eapply election_hale; eassumption.
      - assert (H0 : hale (set_role (Candidate v (e - 1)) n) A) by (eapply hale_keep; [exact H|apply role_keep|apply role_same|exact I|intros _; left; unfold kind; rewrite Er; discriminate]).
        destruct (_ <=? _)%Z; [|eauto]. destruct (election_runs rnd (set_role (Candidate v (e - 1)) n)) as [n1 E1]. exists n1. split; [assumption|]. eapply election_hale; eassumption.
      - assert (H0 : forall fs' hb', map fst fs' = map fst fs -> hale (set_role (Leader fs' hb' rel) n) A).
        { intros fs' hb' Hf. eapply hale_keep; [exact H|apply role_keep|apply role_same| |intros _; left; unfold kind; rewrite Er; discriminate].
          unfold led. cbn [set_role n_role]. unfold covers. rewrite Hf. exact Hl. }
        destruct (_ <=? _)%Z; eexists; (split; [reflexivity|]); apply H0; now rewrite ?map_keys. }
    destruct H1 as (n1 & -> & H1). cbn [bind]. exact (Hcs ok rnd n1 A (hale_fair _ _ H1)).
  - specialize (Hfrom ok1 ok2 rnd from m eq_refl). unfold receive.
    destruct (validate_runs m from n A (j_st _ _ _ _ HJ) (j_al _ _ _ _ HJ)) as [er Ev]. rewrite Ev. cbn [bind]. destruct er; try exact Hret. clear Hret. cbv zeta.
    set (nu := seen_now from (update_term rnd (m_term m) n)).
    assert (Hu : hale nu A) by (apply seen_hale, update_hale, H).
    assert (Hme : n_me nu = n_me n).
    { unfold nu, seen_now, update_term. destruct (_ <=? _); cbn [set_voted set_role n_role n_me]; [|reflexivity]. destruct (n_role n); try reflexivity. destruct (lookup _ _); reflexivity. }
    pose proof (hale_fair _ _ Hu) as Fu.
    assert (Hgo : forall f, (exists n2 A2, f = Ret n2 /\ fair n2 A2) -> (too_far n A (OReceive ok1 ok2 rnd from m) \/ runs (let* n' := (let* n2 := f in change_state sz hmac ok2 rnd n2) in Ret (sent n' None None))) /\
       forall n' a, (let* n' := (let* n2 := f in change_state sz hmac ok2 rnd n2) in Ret (sent n' None None)) = Ret (n', a) -> led n').
    { intros f (n2 & A2 & -> & H2). cbn [bind]. exact (Hcs ok2 rnd n2 A2 H2). }
    assert (Hst : forall f, (exists n2 A2, f = Ret n2 /\ fair n2 A2) -> exists n2 A2, (if m_term m <? n_term nu then Ret nu else f) = Ret n2 /\ fair n2 A2).
    { intros f Hf. destruct (_ <? _); [exists nu, A; auto|exact Hf]. }
    assert (Hrep : forall b n2 A2, hale n2 A2 -> n_me n2 = n_me n -> exists n3 A3, reply from b n2 = Ret n3 /\ fair n3 A3).
    { intros b n2 A2 H2 Hm. destruct (reply_runs from b n2) as [n3 E3]; [congruence|]. exists n3, A2. split; [assumption|]. apply hale_fair. eapply reply_hale; eassumption. }
    destruct (m_body m) as [lidx lterm h|g|prev pterm commit es promise ph|s midx mlast mp mh| |] eqn:Eb.
    + apply Hgo. unfold handle_vote_request. cbv zeta. destruct (n_term nu <? m_term m); [exists nu, A; auto|]. apply (Hrep _ _ A).
      * match goal with |- hale (if ?b then _ else _) _ => destruct b; [|exact Hu] end.
        eapply hale_keep; [exact Hu|constructor; reflexivity|constructor; reflexivity| |unfold kind; cbn [set_voted set_role n_role]; destruct (n_role nu); cbn; auto; intros _; left; discriminate].
        pose proof (ha_led _ _ Hu) as Hl. unfold led in *. cbn [set_voted set_role n_role]. destruct (n_role nu); auto.
      * match goal with |- n_me (if ?b then _ else _) = _ => destruct b; exact Hme end.
    + apply Hgo. apply Hst. eexists _, A. split; [reflexivity|]. apply hale_fair. unfold handle_vote_response. destruct (negb _); [exact Hu|].
      destruct (n_role nu) as [|v e|] eqn:Er; try exact Hu. destruct (_ && _)%bool; [|exact Hu].
      eapply hale_keep; [exact Hu|apply role_keep|apply role_same|exact I|intros _; left; unfold kind; rewrite Er; discriminate].
    + apply Hgo. eapply append_request_fair; [exact Hu|congruence].
    + destruct (classic_far n A ok1 ok2 rnd from m s midx mlast mp mh Eb) as [Hf|Hf]; [split; [now left|]|apply Hgo, Hst, (append_response_fair n A rnd m from); assumption].
      intros n' a E. apply bind_inv in E as (n3 & E & E'). unfold sent in E'. injection E' as <- _. apply bind_inv in E as (n2 & E2 & E).
      refine (proj2 (change_fair ok2 rnd n2 A _) n3 E).
      destruct (m_term m <? n_term nu); [injection E2 as <-; exact Fu|]. apply hale_fair. eapply append_response_hale; eassumption.
    + apply Hgo. apply Hst. destruct (election_runs rnd nu) as [n2 E2]. exists n2, A. split; [assumption|]. apply hale_fair. eapply election_hale; eassumption.
    + apply Hgo. exists nu, A. auto.
  - unfold reset_peer. destruct (negb _); [exact Hret|]. destruct (n_role n) as [| |fs hb rel] eqn:Er; [exact Hret| |].
    + unfold vote_request. rewrite Er. cbn [bind]. match goal with |- context [reply id ?b n] => destruct (reply_runs id b n) as [n1 E1] end; [congruence|]. rewrite E1. cbn [bind].
      split; [right; apply runs_ret|]. intros n' a E. unfold sent in E. injection E as <- _. exact (ha_led _ _ (reply_hale _ _ _ _ _ H E1)).
    + destruct (lookup id fs); [|exact Hret]. cbn [bind]. split; [right; apply runs_ret|]. intros n' a E. unfold sent in E. injection E as <- _.
      pose proof (ha_led _ _ H) as Hl. unfold led in *. rewrite Er in Hl. cbn [set_out set_role n_role]. intros q H1 H2. apply put_keys. right. now apply Hl.
  - split; [right; apply runs_ret|]. intros n' a E. unfold sent in E. injection E as <- _. pose proof (ha_led _ _ H) as Hl. unfold led in *. unfold reconfigure. cbn [set_out set_role n_role]. destruct (n_role n); auto.
  - unfold relinquish. destruct (n_role n) as [| |fs hb rel] eqn:Er; try exact Hret. destruct rel; [exact Hret|].
    destruct (client_request_runs INone n A HJ Hc) as [[n1 [l er]] E1]. rewrite E1. cbn [bind].
    destruct (request_hale INone n A n1 l er H) as [A1 H1]; [discriminate|exact E1|]. pose proof (client_kind _ _ _ _ _ E1) as Hk.
    unfold kind in Hk. rewrite Er in Hk. destruct (n_role n1) as [| |fs1 hb1 rel1] eqn:Er1; try discriminate.
    apply (Hcs ok rnd _ A1), hale_fair. eapply hale_keep; [exact H1|apply role_keep|apply role_same| |intros _; left; unfold kind; rewrite Er1; discriminate].
    pose proof (ha_led _ _ H1) as Hl. unfold led in *. rewrite Er1 in Hl. exact Hl.
  - unfold log_request. cbv zeta.
    assert (Hno : forall er : rerr, (too_far n A (ORequest ok rnd x) \/ runs (let* '(n', r) := Ret (n, (no_loc, er)) in Ret (sent n' (Some r) None))) /\
      forall n' a, (let* '(n', r) := Ret (n, (no_loc, er)) in Ret (sent n' (Some r) None)) = Ret (n', a) -> led n').
    { intros er. split; [right; apply runs_ret|]. intros n' a E. cbn in E. injection E as <- _. apply H. }
    match goal with |- context [match ?r with RE_OK => _ | _ => _ end] => destruct r eqn:Eok end; try apply Hno.
    assert (Hx : forall g m, x = IMember g -> from_proto g = (m, M_OK) -> good_m (n_sm n) m /\ In (n_me n) (m_voting m)).
    { intros g m -> Em. split; [eapply Hreq; [reflexivity|exact Em]|]. destruct (n_role n) as [| |fs hb rel]; try discriminate. destruct rel; [discriminate|].
      destruct (n_unc n); [|discriminate]. rewrite Em in Eok. unfold valid_progression in Eok. cbv zeta in Eok.
      destruct (_ && _)%bool; [discriminate|]. destruct (_ || _)%bool; [discriminate|]. destruct (_ && _)%bool; [discriminate|]. destruct (_ =? 0); [discriminate|].
      destruct (pmem (n_me n) (m_voting m)) eqn:Ep; [now apply pmem_In|discriminate]. }
    destruct (client_request_runs x n A HJ Hc) as [[n1 [l er]] E1]. rewrite E1. cbn [bind].
    destruct (request_hale x n A n1 l er H Hx E1) as [A1 H1]. destruct (change_hale ok rnd n1 A1 H1) as [[n2 E2] H3]. rewrite E2. cbn [bind].
    split; [right; apply runs_ret|]. intros n' a E. unfold sent in E. injection E as <- _. exact (H3 n2 E2).
  - unfold take_committed. destruct (n_commit n <=? n_applied n) eqn:Ec; [exact Hret|]. cbv zeta.
    assert (Ho : l_oldest (n_log n) <= n_applied n + 1) by (destruct (j_st _ _ _ _ HJ) as (d & _ & Ho & _ & Hd); lia).
    rewrite (st_at_ge _ _ _ (n_applied n + 1) (j_st _ _ _ _ HJ)) by exact Ho. destruct (nth_entry_some A (n_applied n + 1)) as [e ->]; [lia|lia|]. cbn [bind].
    split; [right; apply runs_ret|]. intros n' a E. unfold sent in E. injection E as <- _. apply H.
Qed.

(* --- what a call sends ------------------------------------------------------------------ *)
Definition hush (n n' : node) : Prop := n_out n' = n_out n /\ n_me n' = n_me n /\ n_term n' = n_term n.
Lemma hush_refl n : hush n n. Proof. repeat split. Qed.
Lemma hush_trans a b c : hush a b -> hush b c -> hush a c. Proof. intros (? & ? & ?) (? & ? & ?). repeat split; congruence. Qed.
Lemma hmc_hush n : hush n (handle_membership_change n).
Proof. unfold handle_membership_change. destruct (n_role n); repeat split. Qed.
Lemma refresh_hush n : hush n (refresh_members n).
Proof. unfold refresh_members. destruct (pop_committed _ _ _) as [m u]. destruct (Nat.eqb _ _); [apply hush_refl|]. eapply hush_trans; [|apply hmc_hush]. repeat split. Qed.
Lemma log_append_hush e n n' l er : log_append sz e n = Ret (n', (l, er)) -> hush n n'.
Proof.
  intros E. unfold log_append in E. cbv zeta in E.
  destruct (e_inner e) as [|d|g|mm]; try (apply bind_inv in E as ([l0 r0] & _ & E); destruct r0; injection E as <- _ _; repeat split; fail).
  destruct (from_proto g) as [m x]. destruct x; try (injection E as <- _ _; apply hush_refl).
  apply bind_inv in E as ([l0 r0] & _ & E). destruct r0; try (injection E as <- _ _; repeat split; fail). apply bind_inv in E as (n2 & E2 & E). injection E as <- _ _.
  unfold add_uncommitted in E2. destruct (n_unc _); [injection E2 as <-; eapply hush_trans; [|apply hmc_hush]; repeat split|].
  destruct (_ <? _); [injection E2 as <-; eapply hush_trans; [|apply hmc_hush]; repeat split|discriminate].
Qed.
Lemma client_hush x n n' l er : client_request sz hmac x n = Ret (n', (l, er)) -> hush n n'.
Proof.
  unfold client_request. destruct (n_role n) as [| |fs hb rel]; try (intros E; injection E as <- _ _; apply hush_refl).
  destruct rel; [intros E; injection E as <- _ _; apply hush_refl|]. apply log_append_hush.
Qed.
Lemma leader_hush n n' : maybe_become_leader sz hmac n = Ret n' -> hush n n'.
Proof.
  unfold maybe_become_leader. destruct (n_role n); try (intros E; injection E as <-; apply hush_refl). destruct (_ <? _); [intros E; injection E as <-; apply hush_refl|].
  cbv zeta. intros E. apply bind_inv in E as ([n1 [l er]] & E1 & E). injection E as <-. apply client_hush in E1. exact E1.
Qed.
Lemma advance_hush n n' : advance_commit n = Ret n' -> hush n n'.
Proof.
  unfold advance_commit. destruct (n_role n); try (intros E; injection E as <-; apply hush_refl). intros E.
  apply bind_inv in E as (np & _ & E). cbv zeta in E. apply bind_inv in E as (nc & _ & E).
  set (n1 := if n_promise n <? np then set_promise np n else n) in *. assert (H1 : hush n n1) by (unfold n1; destruct (_ <? _); repeat split).
  set (n2 := if n_commit n1 <? nc then refresh_members (set_commit nc n1) else n1) in *.
  assert (H2 : hush n n2) by (unfold n2; clearbody n1; destruct (n_commit n1 <? nc); [eapply hush_trans; [exact H1|]; exact (refresh_hush (set_commit nc n1))|exact H1]).
  injection E as <-. destruct (_ || _)%bool; [|exact H2]. eapply hush_trans; [exact H2|]. unfold mark_update. destruct (n_role n2); repeat split.
Qed.
Lemma process_rest es : forall idx p n n' p', process_entries sz hmac es idx p n = Ret (n', p') -> p < idx -> hush n n' /\ p' < idx + llen es.
Proof.
  induction es as [|e es IH]; intros idx p n n' p' E Hp; cbn [process_entries] in E; [injection E as <- <-; split; [apply hush_refl|unfold llen; cbn; lia]|]. cbv zeta in E.
  assert (Hl : llen (e :: es) = llen es + 1) by (unfold llen; cbn [length]; lia). rewrite Hl.
  destruct (_ && (_ || _))%bool; [injection E as <- <-; split; [apply hush_refl|lia]|].
  destruct (if (_ && _)%bool then _ else _) as [n1|] eqn:Ec; [|injection E as <- <-; split; [apply hush_refl|lia]].
  assert (K1 : hush n n1).
  { destruct (_ && _)%bool; [|injection Ec as <-; apply hush_refl]. destruct (cancel_from _ _) as [l r]. destruct r; try discriminate. injection Ec as <-.
    exact (refresh_hush (set_log l n)). }
  destruct (idx =? _).
  - destruct (negb (beq _ _)); [injection E as <- <-; split; [exact K1|lia]|].
    apply bind_inv in E as ([n2 [l er]] & E2 & E). apply log_append_hush in E2. destruct er; try (injection E as <- <-; split; [eapply hush_trans; eassumption|lia]).
    apply IH in E; [|lia]. destruct E as [E3 E4]. split; [|lia]. eapply hush_trans; [exact K1|]. eapply hush_trans; eassumption.
  - apply IH in E; [|lia]. destruct E as [E3 E4]. split; [|lia]. eapply hush_trans; eassumption.
Qed.
(* requests of a leader of term T whose log ends before nx *)
Definition req_ok (me : bytes) (T nx : N) (x : option bytes * rmsg) : Prop :=
  fst x <> Some me /\
  match m_body (snd x) with
  | AppReq prev _ _ es _ _ => m_term (snd x) = T /\ prev + llen es < nx
  | TimeoutNow => True
  | _ => False
  end.
Definition says (R : option bytes * rmsg -> Prop) (n n' : node) : Prop := exists l, n_out n' = n_out n ++ l /\ Forall R l.
Lemma says_hush R n n' : n_out n' = n_out n -> says R n n'. Proof. intros H. exists []. rewrite app_nil_r. auto. Qed.
Lemma says_trans R a b c : says R a b -> says R b c -> says R a c.
Proof. intros (l1 & E1 & F1) (l2 & E2 & F2). exists (l1 ++ l2). rewrite E2, E1, app_assoc. split; [reflexivity|]. now apply Forall_app. Qed.
Lemma says_weak (R R' : option bytes * rmsg -> Prop) n n' : (forall x, R x -> R' x) -> says R n n' -> says R' n n'.
Proof. intros H (l & E & F). exists l. split; [assumption|]. eapply Forall_impl; eassumption. Qed.
Lemma reply_says to b n n' : reply to b n = Ret n' -> says (fun x => fst x = Some to /\ to <> n_me n /\ snd x = RMsg (n_group n) (n_term n) b) n n' /\ n_me n' = n_me n /\ n_term n' = n_term n.
Proof.
  unfold reply, add_msg. destruct (beq to (n_me n)) eqn:Eb; [discriminate|]. intros E. injection E as <-. split; [|auto].
  eexists. split; [reflexivity|]. constructor; [|constructor]. apply beq_neq in Eb. auto.
Qed.
Lemma chunk_le max es : forall t, llen (take_chunk max t es) <= llen es.
Proof. induction es as [|e es IH]; intros t; cbn [take_chunk]; [lia|]. destruct (_ <=? _); unfold llen in *; cbn [length]; [lia|]. specialize (IH (t + byte_size e)). lia. Qed.
Lemma append_entries_says p n n' : 1 <= l_oldest (n_log n) -> append_entries p n = Ret n' ->
  says (req_ok (n_me n) (n_term n) (nxt (n_log n))) n n' /\ n_me n' = n_me n /\ (is_leader n = false -> n' = n).
Proof.
  intros Ho E. unfold append_entries in E.
  assert (Hno : Ret n = Ret n' -> says (req_ok (n_me n) (n_term n) (nxt (n_log n))) n n' /\ n_me n' = n_me n /\ (is_leader n = false -> n' = n)).
  { intros X. injection X as <-. split; [now apply says_hush|auto]. }
  destruct (n_role n) as [| |fs hb rel] eqn:Er; auto. destruct (lookup p fs) as [f|]; [|auto]. cbv zeta in E.
  destruct (negb _) in E; [auto|]. destruct (_ && _)%bool in E; [auto|].
  match type of E with (if (?a && ?b)%bool then _ else _) = _ => destruct (a && b)%bool eqn:Ep end; [auto|]. clear Hno.
  apply reply_says in E as ((l & E1 & F1) & E2 & _). split; [|split; [exact E2|unfold is_leader; rewrite Er; discriminate]]. exists l. split; [exact E1|]. eapply Forall_impl; [|exact F1].
  intros [to m] (H1 & H2 & H3). cbn [fst snd] in *. subst to m. unfold req_ok. cbn [fst snd m_body m_term set_role n_me] in *. split; [congruence|]. split; [reflexivity|].
  set (nx := N.max _ _) in *. assert (Hnx : 1 <= nx) by (unfold nx; lia). clearbody nx.
  assert (Hprev : nx - 1 < nxt (n_log n)).
  { destruct (nx - 1 =? 0) eqn:E0; [unfold nxt; lia|]. cbn [negb] in Ep. rewrite andb_true_r in Ep. unfold term_at in Ep. destruct (at_idx (n_log n) (nx - 1)) eqn:Ea; [|discriminate]. now apply at_idx_lt in Ea. }
  match goal with |- context [llen (if ?b then _ else _)] => destruct b end; [|unfold llen; cbn; lia].
  pose proof (chunk_le (c_chunk (n_cfg n)) (entries_from (n_log n) nx) 0) as Hc. unfold entries_from in *. destruct (nx <? l_oldest (n_log n)) eqn:Eo; [unfold llen in *; cbn [length] in Hc |- *; cbn; lia|].
  unfold llen in *. rewrite skipn_length in Hc. unfold nxt, llen in *. lia.
Qed.
Lemma send_all_says n n' : 1 <= l_oldest (n_log n) -> send_all n = Ret n' ->
  says (req_ok (n_me n) (n_term n) (nxt (n_log n))) n n' /\ n_me n' = n_me n /\ (is_leader n = false -> n' = n).
Proof.
  intros Ho. unfold send_all.
  enough (Hg : forall me0 n', fold_left (fun o p => let* m := o in if beq p me0 then Ret m else append_entries p m) (m_all (mship n)) (Ret n) = Ret n' ->
    says (req_ok (n_me n) (n_term n) (nxt (n_log n))) n n' /\ n_me n' = n_me n /\ (is_leader n = false -> n' = n)) by (intros E; exact (Hg (n_me n) n' E)).
  clear n'. intros me0. induction (m_all (mship n)) as [|p ps IH] using rev_ind; intros n' E.
  - injection E as <-. split; [now apply says_hush|]. auto.
  - rewrite fold_left_app in E. cbn [fold_left] in E. apply bind_inv in E as (m & E1 & E2).
    assert (Hst : still n m).
    { clear - E1. revert m E1. induction ps as [|q qs IHq] using rev_ind; intros m E1; [injection E1 as <-; apply still_refl|].
      rewrite fold_left_app in E1. cbn [fold_left] in E1. apply bind_inv in E1 as (m1 & E1 & E2). eapply still_trans; [exact (IHq m1 E1)|].
      destruct (beq q me0); [injection E2 as <-; apply still_refl|exact (append_entries_still _ _ _ E2)]. }
    destruct (IH m E1) as (S1 & M1 & N1). destruct (beq p me0) eqn:Ep; [injection E2 as <-; auto|].
    pose proof (still_leader _ _ Hst) as Hl. destruct Hst as [_ T1 L1 _ _].
    apply append_entries_says in E2 as (S2 & M2 & N2); [|rewrite L1; exact Ho]. rewrite M1, T1, L1 in S2.
    split; [eapply says_trans; eassumption|]. split; [congruence|]. intros X. rewrite Hl in N2. rewrite (N2 X). auto.
Qed.
Lemma relinq_says rnd n n' T nx : try_relinquish rnd n = Ret n' -> says (req_ok (n_me n) T nx) n n' /\ n_me n' = n_me n.
Proof.
  unfold try_relinquish. destruct (n_role n); try (intros E; injection E as <-; split; [now apply says_hush|reflexivity]).
  destruct (find _ _) as [p|]; [|intros E; injection E as <-; split; [now apply says_hush|reflexivity]].
  intros E. apply bind_inv in E as (n1 & E1 & E). injection E as <-. apply reply_says in E1 as ((l & E1 & F1) & E2 & _). split; [|exact E2]. exists l. split; [exact E1|].
  eapply Forall_impl; [|exact F1]. intros [to m] (H1 & H2 & H3). cbn [fst snd] in *. subst. unfold req_ok. cbn. split; [congruence|exact I].
Qed.
Lemma change_says ok rnd n A n' : J n A -> n_commit n <= llen A -> change_state sz hmac ok rnd n = Ret n' ->
  exists l, n_out n' = n_out n ++ l /\ Forall (req_ok (n_me n) (n_term n') (nxt (n_log n'))) l /\ (l <> [] -> cand n' = false).
Proof.
  intros HJ Hc E. unfold change_state in E. apply bind_inv in E as (n1 & E1 & E). apply bind_inv in E as (n2 & E2 & E). apply bind_inv in E as (n3 & E3 & E).
  destruct (leader_fit sz hmac M L0 n A n1 HJ Hc E1) as (A1 & (J1 & _ & _) & _). apply leader_hush in E1 as (O1 & M1 & T1).
  assert (H2 : hush n1 n2 /\ still n1 n2) by (destruct ok; [split; [now apply advance_hush|now apply advance_still]|injection E2 as <-; split; [apply hush_refl|apply still_refl]]).
  destruct H2 as [(O2 & M2 & T2) S2].
  assert (Hold : 1 <= l_oldest (n_log n2)) by (rewrite (sl_log _ _ S2); destruct (j_st _ _ _ _ J1) as (d & _ & Ho & _); lia).
  pose proof (send_all_still _ _ E3) as S3. apply send_all_says in E3 as ((l3 & E3 & F3) & M3 & N3); [|exact Hold].
  assert (H4 : exists l4, n_out n' = n_out n3 ++ l4 /\ Forall (req_ok (n_me n3) (n_term n2) (nxt (n_log n2))) l4 /\ n_term n' = n_term n3 /\ n_log n' = n_log n3 /\ (cand n' = true -> n' = n3)).
  { destruct (n_role n3) as [| |fs hb rel] eqn:Er; try (injection E as <-; exists []; rewrite app_nil_r; auto 6). destruct rel; [|injection E as <-; exists []; rewrite app_nil_r; auto 6].
    pose proof (relinq_says _ _ _ (n_term n2) (nxt (n_log n2)) E) as [(l4 & E4 & F4) _]. exists l4. split; [assumption|]. split; [assumption|].
    unfold try_relinquish in E. rewrite Er in E. destruct (find _ _); [|injection E as <-; auto]. apply bind_inv in E as (n4 & E5 & E). injection E as <-. apply reply_still in E5 as [_ X1 X2 _ _].
    split; [exact X1|]. split; [exact X2|]. discriminate. }
  destruct H4 as (l4 & E4 & F4 & T4 & L4 & C4). exists (l3 ++ l4).
  assert (Hq : req_ok (n_me n) (n_term n') (nxt (n_log n')) = req_ok (n_me n2) (n_term n2) (nxt (n_log n2))) by (rewrite L4, (sl_log _ _ S3), T4, (sl_term _ _ S3), M2, M1; reflexivity).
  split; [rewrite E4, E3, app_assoc; congruence|]. rewrite Hq. split; [apply Forall_app; split; [exact F3|rewrite <- M3; exact F4]|].
  intros Hne. destruct (cand n') eqn:Ec; [|reflexivity]. exfalso. rewrite (C4 eq_refl) in *.
  assert (Hl2 : is_leader n2 = false) by (rewrite <- (still_leader _ _ S3); destruct (is_leader n3) eqn:X; [exfalso; exact (leader_cand _ X Ec)|reflexivity]).
  apply Hne. rewrite (N3 Hl2) in *. assert (Hnil : forall (a b : list (option bytes * rmsg)), a = a ++ b -> b = []).
  { intros a b Hab. rewrite <- (app_nil_r a) in Hab at 1. apply app_inv_head in Hab. congruence. }
  rewrite (Hnil _ _ E3), (Hnil _ _ E4). reflexivity.
Qed.
(* message x of a call o of n, which ended as n' *)
Definition sent_ok (n : node) (o : rop) (n' : node) (x : option bytes * rmsg) : Prop :=
  fst x <> Some (n_me n) /\
  match m_body (snd x) with
  | AppReq prev _ _ es _ _ => m_term (snd x) = n_term n' /\ prev + llen es < nxt (n_log n') /\ cand n' = false
  | AppResp true p _ _ _ => exists ok1 ok2 rnd from m prev pterm commit es promise ph, o = OReceive ok1 ok2 rnd from m /\ m_body m = AppReq prev pterm commit es promise ph /\
      fst x = Some from /\ m_term (snd x) = m_term m /\ p <= prev + llen es
  | _ => True
  end.
(* ... before the end of it *)
Definition first_ok (n : node) (o : rop) (x : option bytes * rmsg) : Prop :=
  fst x <> Some (n_me n) /\
  match m_body (snd x) with
  | AppReq _ _ _ _ _ _ => False
  | AppResp true p _ _ _ => exists ok1 ok2 rnd from m prev pterm commit es promise ph, o = OReceive ok1 ok2 rnd from m /\ m_body m = AppReq prev pterm commit es promise ph /\
      fst x = Some from /\ m_term (snd x) = m_term m /\ p <= prev + llen es
  | _ => True
  end.
Lemma first_sent n o n' x : first_ok n o x -> sent_ok n o n' x.
Proof. unfold first_ok, sent_ok. intros [H1 H2]. split; [assumption|]. destruct (m_body (snd x)); auto. contradiction. Qed.
Lemma election_says rnd n o n0 n' : n_me n = n_me n0 -> election_timeout rnd n = Ret n' -> says (first_ok n0 o) n n' /\ n_me n' = n_me n0.
Proof.
  intros Hme E. unfold election_timeout in E. destruct (negb _).
  - injection E as <-. destruct (n_role n); (split; [now apply says_hush|exact Hme]).
  - assert (Hgo : forall r, n_role n = r -> (let n1 := set_role (Candidate [n_me n] rnd) (set_voted (Some (n_me n)) (set_term (n_term n + 1) n)) in
        let* b := vote_request n1 in add_msg None (RMsg (n_group n1) (n_term n1) b) n1) = Ret n' -> says (first_ok n0 o) n n' /\ n_me n' = n_me n0).
    { intros r _ X. cbv zeta in X. apply bind_inv in X as (b & X1 & X). unfold vote_request in X1. cbn [set_role n_role] in X1. injection X1 as <-. unfold add_msg in X.
      destruct (_ && _)%bool; injection X as <-; (split; [|exact Hme]); [now apply says_hush|]. eexists. split; [reflexivity|]. constructor; [|constructor]. split; [discriminate|exact I]. }
    destruct (n_role n) eqn:Er; [eapply Hgo; eauto|eapply Hgo; eauto|]. injection E as <-. split; [now apply says_hush|exact Hme].
Qed.
Lemma reply_first to b n n0 o n' : n_me n = n_me n0 -> reply to b n = Ret n' ->
  (match b with
   | AppReq _ _ _ _ _ _ => False
   | AppResp true p _ _ _ => exists ok1 ok2 rnd from m prev pterm commit es promise ph, o = OReceive ok1 ok2 rnd from m /\ m_body m = AppReq prev pterm commit es promise ph /\
      to = from /\ n_term n = m_term m /\ p <= prev + llen es
   | _ => True end) -> says (first_ok n0 o) n n' /\ n_me n' = n_me n0.
Proof.
  intros Hme E Hb. apply reply_says in E as (S & H1 & _). split; [|congruence]. eapply says_weak; [|exact S].
  intros [t m] (H2 & H3 & H4). cbn [fst snd] in *. subst t m. split; [cbn [fst]; congruence|]. cbn [snd m_body m_term fst]. destruct b as [| | |s midx l p h| |]; auto. destruct s; auto.
  destruct Hb as (ok1 & ok2 & rnd & from & m & prev & pterm & commit & es & promise & ph & X1 & X2 & X3 & X4 & X5).
  exists ok1, ok2, rnd, from, m, prev, pterm, commit, es, promise, ph. subst to. auto.
Qed.
Lemma rstep_says n A o n' a : hale n A -> n_out n = [] -> rstep sz hmac n o = Ret (n', a) -> Forall (sent_ok n o n') (a_sent a).
Proof.
  intros H Hout E.
  assert (Hend : forall ok rnd n2 A2 n3, says (first_ok n o) n n2 -> n_me n2 = n_me n -> J n2 A2 -> n_commit n2 <= llen A2 -> change_state sz hmac ok rnd n2 = Ret n3 -> Forall (sent_ok n o (set_out [] n3)) (n_out n3)).
  { intros ok rnd n2 A2 n3 (l & E1 & F1) Hme J2 C2 E3. destruct (change_says _ _ _ _ _ J2 C2 E3) as (l2 & E2 & F2 & Hc). rewrite E2, E1, Hout. cbn [app]. apply Forall_app.
    split; [eapply Forall_impl; [|exact F1]; intros x; apply first_sent|]. destruct l2 as [|y l2]; [constructor|]. assert (Hcand : cand n3 = false) by (apply Hc; discriminate).
    eapply Forall_impl; [|exact F2]. intros x [X1 X2]. split; [congruence|]. destruct (m_body (snd x)); auto; [|contradiction]. destruct X2. auto. }
  assert (Hplain : forall n1, says (first_ok n o) n n1 -> Forall (sent_ok n o (set_out [] n1)) (n_out n1)).
  { intros n1 (l & E1 & F1). rewrite E1, Hout. eapply Forall_impl; [|exact F1]. intros x; apply first_sent. }
  assert (Hkeep : forall n2, keep n n2 -> J n2 A /\ n_commit n2 <= llen A) by (intros n2 K; split; [eapply keep_J; [exact K|apply H]|rewrite (kp_commit _ _ K); apply H]).
  destruct o as [ok rnd|ok1 ok2 rnd from m|id|c|ok rnd|ok rnd x|]; cbn [rstep] in E; unfold sent in E.
  - apply bind_inv in E as (n1 & E1 & E). injection E as <- <-. cbn [a_sent]. unfold timer_tick in E1. apply bind_inv in E1 as (n2 & E2 & E1).
    assert (H2 : says (first_ok n (OTick ok rnd)) n n2 /\ n_me n2 = n_me n /\ keep n n2).
    { destruct (n_role n) as [l e|v e|fs hb rel]; cbv zeta in E2.
      - destruct (_ <=? _)%Z; [|injection E2 as <-; split; [now apply says_hush|split; [reflexivity|apply role_keep]]].
        pose proof (election_keep _ _ _ E2). apply (election_says _ _ (OTick ok rnd) n) in E2 as [S2 M2]; [|reflexivity]. split; [exact S2|]. split; [exact M2|]. eapply keep_trans; [apply role_keep|eassumption].
      - destruct (_ <=? _)%Z; [|injection E2 as <-; split; [now apply says_hush|split; [reflexivity|apply role_keep]]].
        pose proof (election_keep _ _ _ E2). apply (election_says _ _ (OTick ok rnd) n) in E2 as [S2 M2]; [|reflexivity]. split; [exact S2|]. split; [exact M2|]. eapply keep_trans; [apply role_keep|eassumption].
      - destruct (_ <=? _)%Z; injection E2 as <-; (split; [now apply says_hush|split; [reflexivity|apply role_keep]]). }
    destruct H2 as (S2 & M2 & K2). destruct (Hkeep n2 K2). eapply Hend; eassumption.
  - apply bind_inv in E as (n1 & E1 & E). injection E as <- <-. cbn [a_sent]. unfold receive in E1. apply bind_inv in E1 as (er & _ & E1).
    assert (Hno : Ret n = Ret n1 -> Forall (sent_ok n (OReceive ok1 ok2 rnd from m) (set_out [] n1)) (n_out n1)) by (intros X; injection X as <-; rewrite Hout; constructor).
    destruct er; try (apply Hno; exact E1). clear Hno. cbv zeta in E1. apply bind_inv in E1 as (n2 & E2 & E1).
    set (nu := seen_now from (update_term rnd (m_term m) n)) in *.
    assert (Ku : keep n nu) by (eapply keep_trans; [apply update_keep|apply seen_keep]).
    assert (Hu : n_out nu = n_out n /\ n_me nu = n_me n).
    { unfold nu, seen_now, update_term. destruct (_ <=? _); cbn [set_voted set_role n_role]; [|split; reflexivity]. destruct (n_role n); try (split; reflexivity). destruct (lookup _ _); split; reflexivity. }
    destruct Hu as [Ou Mu]. assert (Su : forall n3, says (first_ok n (OReceive ok1 ok2 rnd from m)) nu n3 -> says (first_ok n (OReceive ok1 ok2 rnd from m)) n n3) by (intros n3 X; eapply says_trans; [apply says_hush; exact Ou|exact X]).
    assert (Hk2 : forall n3, says (first_ok n (OReceive ok1 ok2 rnd from m)) nu n3 -> n_me n3 = n_me n -> keep nu n3 -> change_state sz hmac ok2 rnd n3 = Ret n1 -> Forall (sent_ok n (OReceive ok1 ok2 rnd from m) (set_out [] n1)) (n_out n1)).
    { intros n3 X1 X2 X3 X4. destruct (Hkeep n3 (keep_trans _ _ _ Ku X3)) as [Y1 Y2]. exact (Hend ok2 rnd n3 A n1 (Su _ X1) X2 Y1 Y2 X4). }
    assert (Hnu : says (first_ok n (OReceive ok1 ok2 rnd from m)) nu nu) by now apply says_hush.
    destruct (m_body m) as [lidx lterm h|g|prev pterm commit es promise ph|s midx mlast mp mh| |] eqn:Eb.
    + unfold handle_vote_request in E2. cbv zeta in E2. destruct (n_term nu <? m_term m); [injection E2 as <-; apply (Hk2 nu); auto; apply keep_refl|].
      pose proof (reply_keep _ _ _ _ E2) as K2. apply (reply_first _ _ _ n (OReceive ok1 ok2 rnd from m)) in E2 as [S2 M2]; [| |exact I].
      * apply (Hk2 n2); auto; [|eapply keep_trans; [|exact K2]; match goal with |- keep _ (if ?b then _ else _) => destruct b end; constructor; reflexivity].
        eapply says_trans; [|exact S2]. apply says_hush. match goal with |- n_out (if ?b then _ else _) = _ => destruct b; reflexivity end.
      * match goal with |- n_me (if ?b then _ else _) = _ => destruct b; exact Mu end.
    + destruct (_ <? _); injection E2 as <-; [apply (Hk2 nu); auto; apply keep_refl|].
      unfold handle_vote_response in *. destruct (negb _); [apply (Hk2 nu); auto; apply keep_refl|]. destruct (n_role nu); try (apply (Hk2 nu); auto; apply keep_refl).
      destruct (_ && _)%bool; [|apply (Hk2 nu); auto; apply keep_refl]. eapply Hk2; [| | |exact E1]; [now apply says_hush|exact Mu|apply role_keep].
    + destruct (append_request_fit sz hmac M L0 _ _ _ _ _ _ _ _ _ _ A _ (keep_J _ _ _ _ _ Ku (ha_J _ _ H)) ltac:(rewrite (kp_commit _ _ Ku); apply H) E2) as (A2 & J2 & P1 & P2 & P3).
      assert (H2 : says (first_ok n (OReceive ok1 ok2 rnd from m)) nu n2 /\ n_me n2 = n_me n).
      { unfold handle_append_request in E2. cbv zeta in E2. destruct (n_term nu <? m_term m) eqn:Et1; [injection E2 as <-; auto|].
        destruct (m_term m <? n_term nu) eqn:Et2; [eapply reply_first; [exact Mu|exact E2|exact I]|].
        match type of E2 with (match n_role nu with Follower _ _ => ?x | _ => _ end) = _ => assert (Hx : x = Ret n2 -> says (first_ok n (OReceive ok1 ok2 rnd from m)) nu n2 /\ n_me n2 = n_me n) end.
        { clear E2. intros E2. destruct (negb _) in E2; [apply (reply_first _ _ _ n (OReceive ok1 ok2 rnd from m)) in E2; [exact E2|exact Mu|exact I]|].
          apply bind_inv in E2 as ([n3 pr] & E3 & E2). apply process_rest in E3 as [(O3 & M3 & T3) Hpr]; [|lia]. cbn [set_role n_out n_me n_term] in O3, M3, T3.
          destruct (_ && negb ok1)%bool; [injection E2 as <-; split; [now apply says_hush|congruence]|].
          set (z1 := if n_promise n3 <? _ then _ else n3) in E2. assert (Hz1 : hush n3 z1) by (unfold z1; destruct (n_promise n3 <? _); repeat split).
          set (z2 := if n_commit z1 <? _ then _ else z1) in E2. assert (Hz2 : hush n3 z2).
          { unfold z2. destruct (n_commit z1 <? _); [|exact Hz1]. eapply hush_trans; [exact Hz1|]. match goal with |- hush _ (refresh_members ?y) => exact (refresh_hush y) end. }
          clearbody z2. destruct Hz2 as (Z1 & Z2 & Z3).
          apply (reply_first _ _ _ n (OReceive ok1 ok2 rnd from m)) in E2 as [S2 M2]; [| congruence|].
          - split; [|exact M2]. eapply says_trans; [|exact S2]. apply says_hush. congruence.
          - exists ok1, ok2, rnd, from, m, prev, pterm, commit, es, promise, ph. do 3 (split; [auto|]). split; [rewrite Z3, T3; lia|lia]. }
        destruct (n_role nu); [apply Hx; exact E2|apply Hx; exact E2|injection E2 as <-; auto]. }
      destruct H2 as [S2 M2]. eapply Hend; [apply Su; exact S2|exact M2|exact J2|exact P3|exact E1].
    + destruct (_ <? _); [injection E2 as <-; apply (Hk2 nu); auto; apply keep_refl|].
      unfold handle_append_response in E2. destruct (negb _); [injection E2 as <-; apply (Hk2 nu); auto; apply keep_refl|].
      destruct (n_role nu) as [| |fs hb rel]; try (injection E2 as <-; apply (Hk2 nu); auto; apply keep_refl).
      destruct (lookup from fs); [|injection E2 as <-; apply (Hk2 nu); auto; apply keep_refl]. destruct s; cbv zeta in E2.
      * destruct (match at_idx _ _ with Some e => _ | None => _ end); [|discriminate]. injection E2 as <-. eapply Hk2; [| | |exact E1]; [now apply says_hush|exact Mu|apply role_keep].
      * injection E2 as <-. eapply Hk2; [| | |exact E1]; [now apply says_hush|exact Mu|apply role_keep].
    + destruct (_ <? _); [injection E2 as <-; apply (Hk2 nu); auto; apply keep_refl|]. pose proof (election_keep _ _ _ E2) as K2.
      apply (election_says _ _ (OReceive ok1 ok2 rnd from m) n) in E2 as [S2 M2]; [|exact Mu]. apply (Hk2 n2); auto.
    + injection E2 as <-. apply (Hk2 nu); auto; apply keep_refl.
  - apply bind_inv in E as (n1 & E1 & E). injection E as <- <-. cbn [a_sent]. apply Hplain. unfold reset_peer in E1. destruct (negb _); [injection E1 as <-; now apply says_hush|].
    destruct (n_role n) as [| |fs hb rel] eqn:Er; [injection E1 as <-; now apply says_hush| |].
    + unfold vote_request in E1. rewrite Er in E1. cbn [bind] in E1. eapply reply_first in E1 as [S1 _]; [exact S1|reflexivity|exact I].
    + destruct (lookup id fs); injection E1 as <-; now apply says_hush.
  - injection E as <- <-. cbn [a_sent]. apply (Hplain (reconfigure c n)), says_hush. reflexivity.
  - apply bind_inv in E as (n1 & E1 & E). injection E as <- <-. cbn [a_sent]. unfold relinquish in E1.
    destruct (n_role n) as [| |fs hb rel]; try (injection E1 as <-; apply Hplain; now apply says_hush). destruct rel; [injection E1 as <-; apply Hplain; now apply says_hush|].
    apply bind_inv in E1 as ([n2 [l er]] & E2 & E1). destruct (client_request_fit sz hmac M L0 _ _ A _ _ _ (ha_J _ _ H) (ha_c _ _ H) E2) as (A2 & (J2 & P1 & P2) & P3).
    apply client_hush in E2 as (O2 & M2 & _). destruct (n_role n2) as [| |fs2 hb2 rel2]; try discriminate. pose proof (ha_c _ _ H) as Hc. apply prefix_len in P1.
    eapply Hend; [| | | |exact E1]; [now apply says_hush|exact M2|eapply keep_J; [apply role_keep|exact J2]|cbn [set_role n_commit]; rewrite P3; unfold llen in *; lia].
  - apply bind_inv in E as ([n1 [l er]] & E1 & E). injection E as <- <-. cbn [a_sent]. unfold log_request in E1. cbv zeta in E1.
    assert (Hno : forall r : rerr, Ret (n, (no_loc, r)) = Ret (n1, (l, er)) -> Forall (sent_ok n (ORequest ok rnd x) (set_out [] n1)) (n_out n1)) by (intros r X; injection X as <- _ _; apply Hplain; now apply says_hush).
    destruct (match x with IMember g => _ | _ => RE_OK end); try (eapply Hno; exact E1).
    apply bind_inv in E1 as ([n2 [l2 er2]] & E2 & E1). apply bind_inv in E1 as (n3 & E3 & E1). injection E1 as <- _ _.
    destruct (client_request_fit sz hmac M L0 _ _ A _ _ _ (ha_J _ _ H) (ha_c _ _ H) E2) as (A2 & (J2 & P1 & P2) & P3).
    apply client_hush in E2 as (O2 & M2 & _). pose proof (ha_c _ _ H) as Hc. apply prefix_len in P1.
    eapply Hend; [| | | |exact E3]; [now apply says_hush|exact M2|exact J2|rewrite P3; unfold llen in *; lia].
  - apply bind_inv in E as ([n1 t] & E1 & E). injection E as <- <-. cbn [a_sent]. apply Hplain, says_hush. unfold take_committed in E1.
    destruct (_ <=? _); [injection E1 as <- _; reflexivity|]. cbv zeta in E1. destruct (at_idx _ _); [|discriminate]. injection E1 as <- _. reflexivity.
Qed.
End Stop.

Section Group_.
Variable sz : sizes.
Variable hmac : bytes -> bytes -> bytes.
Variable M : members.
Variable sm : N.
Variable L0 : list entry.
Variable F : members -> Prop.
Hypothesis HM : wfF F M.
Hypothesis Hov : overlapping sm (wfF F).
Notation ginv := (ginv hmac sm L0 (wfF F) (within F)).

Lemma good_F m : wfF F m -> good_m sm m.
Proof.
  intros Hm. destruct Hm as [Hf (W1 & W2 & W3)] eqn:X. split; [now apply ssorted_NoDup|]. split; [assumption|].
  destruct (N.eq_dec (quorum_size (psize (m_voting m)) sm) 0) as [Hz|Hz]; [|lia]. exfalso.
  assert (Hq : is_quorum (m_voting m) sm []) by (split; [constructor|]; split; [intros k []|]; rewrite Hz; cbn; lia).
  specialize (Hov m m [] [] Hm Hm Hq Hq). cbn in Hov. lia.
Qed.
Definition all_led (s : net) : Prop := forall k n A, In (k, (n, A)) (w_past s) -> led n.
Lemma all_hale s k n A : ginv s -> fits M L0 s -> all_led s -> In (k, (n, A)) (w_past s) -> hale M L0 n A /\ n_out n = [] /\ n_me n = k /\ n_sm n = sm /\ lw n.
Proof.
  intros HI HF HL Hin. destruct (gi_past _ _ _ _ _ s HI k n A Hin) as [HR Ho]. destruct (ri_id _ _ _ _ _ _ _ _ _ _ _ HR) as [Hk Hsm].
  split; [|split; [assumption|split; [assumption|split; [assumption|exact (RI_lw _ _ _ _ _ _ _ _ _ _ _ HR)]]]]. constructor.
  - exact (HF _ _ _ Hin).
  - now destruct (ri_cm _ _ _ _ _ _ _ _ _ _ _ HR).
  - exact (HL _ _ _ Hin).
  - rewrite Hsm. apply good_F. exact (mship_F _ n (ri_ms _ _ _ _ _ _ _ _ _ _ _ HR)).
  - intros Hnf. pose proof (ri_ro _ _ _ _ _ _ _ _ _ _ _ HR) as Hro. unfold role_ok, kind in *. destruct (n_role n).
    + congruence.
    + destruct Hro as (_ & _ & Hme & Hv). now apply Hv.
    + destruct Hro as (_ & [Hv _] & _). now apply pmem_In.
Qed.
(* q led in term t, its log then having p entries *)
Definition claim (s : net) (q : bytes) (t p : N) : Prop := ~ In q (w_rolled s) -> forall n A, lookup q (w_now s) = Some (n, A) ->
  t <= n_term n /\ (n_term n = t -> cand n = false /\ (is_leader n = true -> p <= llen A)).
Record sound (s : net) : Prop := MkSound {
  so_led : all_led s;
  so_to : forall k to m, In (k, (to, m)) (w_soup s) -> to <> Some k;
  so_claim : forall k to m, In (k, (to, m)) (w_soup s) ->
    match m_body m with
    | AppReq prev _ _ es _ _ => claim s k (m_term m) (prev + llen es)
    | AppResp true p _ _ _ => exists q, to = Some q /\ claim s q (m_term m) p
    | _ => True
    end
}.
Lemma stored_nxt l ap A : stored l ap A -> nxt l = llen A + 1.
Proof. intros (d & He & Ho & Hd & _). unfold nxt. rewrite He, Ho. unfold llen. rewrite skipn_length. lia. Qed.
(* a call that the replica survives *)
Definition op_fine (s : net) (k : bytes) (o : rop) : Prop :=
  (forall ok rnd x, o = ORequest ok rnd x -> within F x) /\
  (forall ok1 ok2 rnd from m, o = OReceive ok1 ok2 rnd from m -> exists to, In (from, (to, m)) (w_soup s) /\ from <> k /\ match to with Some p => p = k | None => True end).
Lemma act_sound k o s : ginv s -> ginv (act sz hmac k o s) -> fits M L0 s -> op_fine s k o -> sound s -> o <> OReset k -> sound (act sz hmac k o s).
Proof.
  intros HI HI' HF [Hreq Hmsg] HS Hres. unfold act in *. destruct (lookup k (w_now s)) as [[n A]|] eqn:El; [|assumption].
  destruct (rstep sz hmac n o) as [[n' a]|] eqn:Er; [|assumption]. cbv zeta in *.
  pose proof (gi_now _ _ _ _ _ s HI k n A El) as Hin. destruct (all_hale s k n A HI HF (so_led s HS) Hin) as (Hh & Ho & Hme & Hsm & Hlw).
  set (A' := regrow A (n_log n')) in *. set (s' := Net _ _ _ _ _) in *.
  pose proof (rstep_shape sz hmac n o n' a Hlw Er) as [S1 _ S3 S4 S5 _ _ _].
  pose proof (rstep_fit sz hmac M L0 n A o n' a (ha_J _ _ _ _ Hh) (ha_c _ _ _ _ Hh) Er) as HJ'. fold A' in HJ'.
  assert (Hgood : forall ok rnd g m, o = ORequest ok rnd (IMember g) -> from_proto g = (m, M_OK) -> good_m (n_sm n) m).
  { intros ok rnd g m -> Em. rewrite Hsm. apply good_F. split; [exact (Hreq ok rnd _ eq_refl m Em)|]. now apply from_proto_wf in Em. }
  destruct (rstep_runs sz hmac M L0 n A o Hh Hgood) as [_ Hled]; [congruence| |].
  { intros ok1 ok2 rnd from m E. destruct (Hmsg _ _ _ _ _ E) as (to & _ & Hd & _). congruence. }
  specialize (Hled n' a Er).
  assert (Hk : lookup k (w_now s') = Some (n', A')) by (unfold s'; cbn [w_now]; apply lookup_put_same).
  assert (Hne : forall k1, k1 <> k -> lookup k1 (w_now s') = lookup k1 (w_now s)) by (intros k1 Hd; unfold s'; cbn [w_now]; now rewrite lookup_put_other).
  assert (Hcl : forall q t p, claim s q t p -> claim s' q t p).
  { intros q t p Hc Hr n1 A1 Hl. destruct (list_eq_dec N.eq_dec q k) as [->|Hd].
    - rewrite Hk in Hl. injection Hl as <- <-. destruct (Hc Hr n A El) as [C1 C2]. split; [lia|]. intros Ht.
      assert (Ht0 : n_term n = t) by lia. destruct (C2 Ht0) as [C3 C4].
      split. { destruct (cand n') eqn:Ec; [|reflexivity]. destruct (S5 eq_refl) as [X|[_ X]]; [lia|congruence]. }
      intros Hl'. destruct (S4 Hl') as [[X1 X2]|[X|[_ X]]]; [|lia|congruence]. specialize (C4 X1). destruct (S3 X1 Hl' X2) as [G _].
      rewrite (stored_nxt _ _ _ (j_st _ _ _ _ HJ')), (stored_nxt _ _ _ (j_st _ _ _ _ (ha_J _ _ _ _ Hh))) in G. lia.
    - rewrite (Hne q Hd) in Hl. exact (Hc Hr n1 A1 Hl). }
  pose proof (rstep_says sz hmac M L0 n A o n' a Hh Ho Er) as Hout. rewrite Forall_forall in Hout.
  constructor.
  - intros k1 n1 A1 H1. unfold s' in H1. cbn [w_past] in H1. apply in_app_or in H1 as [H1|[H1|[]]]; [exact (so_led s HS _ _ _ H1)|]. injection H1 as <- <- <-. exact Hled.
  - intros k1 to m H1. unfold s' in H1. cbn [w_soup] in H1. apply in_app_or in H1 as [H1|H1]; [exact (so_to s HS _ _ _ H1)|].
    apply in_map_iff in H1 as ([to' m'] & E & H1). injection E as <- <- <-. destruct (Hout _ H1) as [H2 _]. cbn [fst] in H2. congruence.
  - intros k1 to m H1. unfold s' in H1. cbn [w_soup] in H1. apply in_app_or in H1 as [H1|H1].
    + pose proof (so_claim s HS _ _ _ H1) as H2. destruct (m_body m) as [| | |s0 midx mlast mp mh| |]; auto. destruct s0; auto. destruct H2 as (q & Hq & H2). exists q. auto.
    + apply in_map_iff in H1 as ([to' m'] & E & H1). injection E as <- <- <-. destruct (Hout _ H1) as [_ H2]. cbn [fst snd] in H2.
      destruct (m_body m') as [| |prev pterm commit es promise ph|s0 midx mlast mp mh| |]; auto.
      * destruct H2 as (T & Hp & Hc). intros _ n1 A1 Hl. rewrite Hk in Hl. injection Hl as <- <-. rewrite T. split; [lia|]. intros _. split; [assumption|]. intros _.
        rewrite (stored_nxt _ _ _ (j_st _ _ _ _ HJ')) in Hp. lia.
      * destruct s0; auto. destruct H2 as (ok1 & ok2 & rnd & from & m & prev & pterm & commit & es & promise & ph & E & Eb & Et & Em & Hp).
        exists from. split; [exact Et|]. destruct (Hmsg _ _ _ _ _ E) as (to & Hs & _). pose proof (so_claim s HS _ _ _ Hs) as Hc. rewrite Eb in Hc. rewrite Em.
        apply Hcl in Hc. intros Hr n1 A1 Hl. destruct (Hc Hr n1 A1 Hl) as [C1 C2]. split; [assumption|]. intros Ht. destruct (C2 Ht) as [C3 C4]. split; [assumption|]. intros X. specialize (C4 X). lia.
Qed.
Lemma step_sound s ev : ginv s -> ginv (net_step sz hmac s ev) -> fits M L0 s -> ev_fixed (within F) ev -> sound s -> sound (net_step sz hmac s ev).
Proof.
  intros HI HI' HF Hev HS. destruct ev as [k o|k j ok1 ok2 rnd|k j]; cbn [net_step] in *.
  - assert (Hc : match o with OReceive _ _ _ _ _ => False | _ => True end -> ginv (act sz hmac k o s) -> sound (act sz hmac k o s)).
    { intros Ho HI1. destruct (match o with OReset id => if beq id k then true else false | _ => false end) eqn:Eres.
      - destruct o as [| |id| | | |]; try discriminate. destruct (beq id k) eqn:Eb; [|discriminate]. apply beq_eq in Eb. subst id.
        (* a replica asked to reset itself *)
        unfold act in *. destruct (lookup k (w_now s)) as [[n A]|] eqn:El; [|assumption]. pose proof (gi_now _ _ _ _ _ s HI k n A El) as Hin.
        destruct (all_hale s k n A HI HF (so_led s HS) Hin) as (Hh & Ho' & Hme & Hsm & Hlw).
        destruct (rstep sz hmac n (OReset k)) as [[n' a]|] eqn:Er; [|assumption]. cbv zeta in *.
        cbn [rstep] in Er. apply bind_inv in Er as (n1 & E1 & Er). unfold sent in Er. injection Er as <- <-.
        assert (Hn1 : n1 = n).
        { unfold reset_peer in E1. destruct (negb _); [now injection E1|]. destruct (n_role n) as [| |fs hb rel] eqn:Ero; [now injection E1| |].
          - unfold vote_request in E1. rewrite Ero in E1. cbn [bind] in E1. unfold reply, add_msg in E1. rewrite Hme, beq_refl in E1. discriminate.
          - destruct (gi_past _ _ _ _ _ s HI k n A Hin) as [HR _]. pose proof (ri_ro _ _ _ _ _ _ _ _ _ _ _ HR) as Hro. rewrite Ero in Hro. destruct Hro as (_ & _ & _ & Hfs).
            destruct (lookup k fs) as [f|] eqn:Ef; [|now injection E1]. apply SMap.lookup_in in Ef. destruct (Hfs k f Ef) as (_ & X & _). congruence. }
        subst n1. cbn [a_sent a_taken]. rewrite Ho' in *. cbn [map app] in *.
        assert (HA : regrow A (n_log (set_out [] n)) = A) by (apply (regrow_same A A (n_log n) (n_applied n) (j_st _ _ _ _ (ha_J _ _ _ _ Hh)) (or_introl eq_refl))).
        rewrite HA in *.
        constructor; cbn [w_past w_soup].
        + intros k1 n1 A1 H1. apply in_app_or in H1 as [H1|[H1|[]]]; [exact (so_led s HS _ _ _ H1)|]. injection H1 as <- <- <-. exact (ha_led _ _ _ _ Hh).
        + rewrite app_nil_r. exact (so_to s HS).
        + rewrite app_nil_r. intros k1 to m H1. pose proof (so_claim s HS _ _ _ H1) as H2.
          assert (Hcl : forall q t p, claim s q t p -> forall x y, claim (Net (put k (set_out [] n, A) (w_now s)) x (w_soup s) y (w_rolled s)) q t p).
          { intros q t p Hc x y Hr n1 A1 Hl. cbn [w_now w_rolled] in *. destruct (list_eq_dec N.eq_dec q k) as [->|Hd].
            - rewrite lookup_put_same in Hl. injection Hl as <- <-. exact (Hc Hr n A El).
            - rewrite lookup_put_other in Hl by assumption. exact (Hc Hr n1 A1 Hl). }
          destruct (m_body m) as [| | |s0 midx mlast mp mh| |]; auto. destruct s0; auto. destruct H2 as (q & Hq & H2). exists q. auto.
      - apply act_sound; auto.
        + split; [|intros ok1 ok2 rnd from m E; subst o; destruct Ho]. intros ok rnd x ->. exact Hev.
        + intros ->. rewrite beq_refl in Eres. discriminate. }
    destruct o; auto.
  - destruct (nth_error (w_soup s) j) as [[from [to m]]|] eqn:Ej; [|assumption].
    destruct (match to with Some p => beq p k | None => _ end) eqn:Ed; [|assumption]. apply nth_error_In in Ej.
    apply act_sound; auto; [|discriminate]. split; [discriminate|]. intros a1 a2 r f m' E. injection E as <- <- <- <- <-. exists to. split; [assumption|].
    pose proof (so_to s HS _ _ _ Ej) as Ht. destruct to as [p|].
    + apply beq_eq in Ed. subst p. split; [congruence|reflexivity].
    + split; [|exact I]. intros ->. rewrite beq_refl in Ed. discriminate.
  - destruct (nth_error (w_past s) j) as [[k' x]|] eqn:Ej; [|assumption]. destruct (beq k' k) eqn:Ek; [|assumption]. apply beq_eq in Ek. subst k'.
    constructor; cbn [w_past w_soup]; [exact (so_led s HS)|exact (so_to s HS)|]. intros k1 to m H1. pose proof (so_claim s HS _ _ _ H1) as H2.
    assert (Hcl : forall q t p, claim s q t p -> claim (Net (put k x (w_now s)) (w_past s) (w_soup s) (w_taken s) (pins k (w_rolled s))) q t p).
    { intros q t p Hc Hr n1 A1 Hl. cbn [w_now w_rolled] in *. rewrite pins_In in Hr. rewrite lookup_put_other in Hl by tauto. apply (Hc ltac:(tauto) n1 A1 Hl). }
    destruct (m_body m) as [| | |s0 midx mlast mp mh| |]; auto. destruct s0; auto. destruct H2 as (q & Hq & H2). exists q. auto.
Qed.
Lemma start_sound group xs s : Forall (fun x => s_drop x = 0%nat \/ (s_drop x < length L0)%nat) xs -> start sz hmac group M sm L0 xs = Ret s -> sound s.
Proof.
  intros Hd E. unfold start in E. apply bind_inv in E as (p & E1 & E). injection E as <-.
  constructor; cbn [w_past w_soup]; [|intros k to m []|intros k to m []]. intros k n A Hin. cbn [w_past] in Hin.
  destruct (seated_in sz hmac M sm L0 group xs p E1) as [_ Hs]. destruct (Hs _ _ _ Hin) as (x & Hx & _ & En & _). rewrite Forall_forall in Hd. specialize (Hd x Hx). clear - HM Hov Hd En.
  unfold seat_node, new_node in En. set (log := RLog _ _ _ _) in En. cbv zeta in En. set (i := last_idx log) in En. set (n0 := Node group _ M [] _ i 0 None _ log i i sm []) in En.
  assert (Hst : stored log (llen L0) L0).
  { exists (s_drop x). split; [reflexivity|]. split; [reflexivity|]. unfold llen. destruct Hd as [->|Hd]; [split; [lia|now left]|split; [lia|right; lia]]. }
  assert (Hi : i = llen L0) by (apply (st_last log (llen L0)); [assumption|lia]).
  assert (H0 : hale M L0 n0 L0).
  { constructor; [| |exact I|exact (good_F M HM)|].
    - constructor; cbn [n0 n_log n_applied n_commit]; rewrite ?Hi; auto; try lia. unfold fit; cbn [n0 n_commit n_mem n_unc]. rewrite Hi. unfold beyond.
      rewrite upto_all by lia. unfold llen. rewrite Nat2N.id, skipn_all. split; reflexivity.
    - cbn [n0 n_commit]. lia.
    - intros X. now destruct X. }
  destruct (_ && _)%bool; [|injection En as <-; exact I].
  apply bind_inv in En as (n1 & E1 & En). apply bind_inv in En as (n2 & E2 & En). assert (n2 = n) as <- by (destruct (n_out n2); [now injection En|discriminate]).
  eapply election_hale in E1; [|exact H0]. exact (proj2 (change_hale sz hmac M L0 _ _ n1 L0 E1) n2 E2).
Qed.
End Group_.

Lemma reached_sound sz hmac M sm L0 evs ev s : net_reached_from sz hmac M sm L0 evs s -> changes_overlap M sm (evs ++ [ev]) -> no_clash s ->
  exists F, wfF F M /\ overlapping sm (wfF F) /\ ginv hmac sm L0 (wfF F) (within F) s /\ fits M L0 s /\ sound s /\ ev_fixed (within F) ev.
Proof.
  intros (group & xs & s0 & (H1 & H2 & H3 & H4 & H5 & H6 & H7) & E & ->) (F & HF & Hask & Hov) Hun.
  destruct (moved_parts M sm F (evs ++ [ev]) H1 HF Hask Hov) as (HM & Hw & Ho & Hx & Hn & Hff). apply Forall_app in Hff as [Hff Hfe]. inversion Hfe as [|? ? Hf1 _]; subst.
  exists F. split; [assumption|]. split; [assumption|].
  assert (G0 : ginv hmac sm L0 (wfF F) (within F) s0) by (eapply (start_inv sz hmac M); eassumption).
  assert (Hcl : forall s, ginv hmac sm L0 (wfF F) (within F) s -> forall k n A, In (k, (n, A)) (w_past s) -> n_commit n <= llen A).
  { intros s Hs k n A Hin. destruct (gi_past _ _ _ _ _ s Hs k n A Hin) as [HR _]. now destruct (ri_cm _ _ _ _ _ _ _ _ _ _ _ HR). }
  assert (F0 : fits M L0 s0) by (eapply start_fits; eassumption).
  assert (S0 : sound s0) by (eapply (start_sound sz hmac M sm L0 F HM Ho); eassumption). clear E H1 H2 H3 H4 H5 H6 H7 Hask Hfe.
  enough (Hgo : ginv hmac sm L0 (wfF F) (within F) (net_run sz hmac s0 evs) /\ fits M L0 (net_run sz hmac s0 evs) /\ sound (net_run sz hmac s0 evs)) by tauto.
  revert s0 G0 F0 S0 Hun. induction evs as [|e evs IH]; intros s0 G0 F0 S0 Hun; cbn [net_run fold_left] in *; [auto|].
  inversion Hff as [|? ? Hc1 Hc2]; subst.
  assert (G1 : ginv hmac sm L0 (wfF F) (within F) (net_step sz hmac s0 e)).
  { eapply (step_inv sz hmac M); eauto. intros k1 n1 A1 k2 n2 A2 H3 H4.
    assert (Hi : incl (w_past s0) (w_past (net_run sz hmac (net_step sz hmac s0 e) evs))).
    { eapply incl_tran; [apply (step_past sz hmac s0 e)|apply run_past]. }
    apply (Hun k1 n1 A1 k2 n2 A2); apply Hi; assumption. }
  apply IH; auto.
  - apply step_fits; [assumption|]. intros k n A Hl. pose proof (gi_now _ _ _ _ _ _ G0 k n A Hl) as Hin. split; [assumption|]. exact (Hcl _ G0 _ _ _ Hin).
  - eapply (step_sound sz hmac M sm L0 F); eassumption.
Qed.
Lemma stops_only sz hmac M sm L0 evs ev s : net_reached_from sz hmac M sm L0 evs s -> changes_overlap M sm (evs ++ [ev]) -> no_clash s -> aborts sz hmac s ev ->
  (exists k, ev = ECall k (OReset k)) \/ exists k, In k (w_rolled s) /\ beyond_leader s ev k.
Proof.
  intros Hr Hc Hn Ha. destruct (reached_sound _ _ _ _ _ _ _ _ Hr Hc Hn) as (F & HM & Ho & HI & HF & HS & Hev).
  assert (Hgo : forall k o n A, lookup k (w_now s) = Some (n, A) -> op_fine F s k o -> o <> OReset k -> rstep sz hmac n o = Crash -> too_far n A o).
  { intros k o n A El [Hreq Hmsg] Hres Er. pose proof (gi_now _ _ _ _ _ s HI k n A El) as Hin.
    destruct (all_hale hmac M sm L0 F Ho s k n A HI HF (so_led s HS) Hin) as (Hh & _ & Hme & Hsm & _).
    destruct (rstep_runs sz hmac M L0 n A o Hh) as [[X|[r X]] _]; [|congruence| |exact X|congruence].
    - intros ok rnd g m -> Em. rewrite Hsm. apply (good_F sm F Ho). split; [exact (Hreq ok rnd _ eq_refl m Em)|]. now apply from_proto_wf in Em.
    - intros ok1 ok2 rnd from m E. destruct (Hmsg _ _ _ _ _ E) as (to & _ & Hd & _). congruence. }
  destruct ev as [k o|k j ok1 ok2 rnd|k j]; cbn [aborts] in Ha; [| |destruct Ha].
  - assert (Hc' : match o with OReceive _ _ _ _ _ => False | _ => True end -> (exists n A, lookup k (w_now s) = Some (n, A) /\ rstep sz hmac n o = Crash) -> exists k0, ECall k o = ECall k0 (OReset k0)).
    { intros Hno (n & A & El & Er). destruct (match o with OReset id => if beq id k then true else false | _ => false end) eqn:Eres.
      - destruct o as [| |id| | | |]; try discriminate. destruct (beq id k) eqn:Eb; [|discriminate]. apply beq_eq in Eb. subst id. eauto.
      - exfalso. assert (Hf : op_fine F s k o) by (split; [intros ok rnd x ->; exact Hev|intros a1 a2 a3 a4 a5 E; subst o; destruct Hno]).
        destruct (Hgo k o n A El Hf) as (a1 & a2 & a3 & a4 & a5 & a6 & a7 & a8 & a9 & E & _); [intros ->; rewrite beq_refl in Eres; discriminate|exact Er|]. subst o. destruct Hno. }
    left. destruct o; auto; destruct Ha.
  - destruct Ha as (from & to & m & n & A & Ej & Ed & El & Er). pose proof (nth_error_In _ _ Ej) as Hs. pose proof (so_to s HS _ _ _ Hs) as Ht.
    assert (Hf : op_fine F s k (OReceive ok1 ok2 rnd from m)).
    { split; [discriminate|]. intros a1 a2 a3 a4 a5 E. injection E as <- <- <- <- <-. exists to. split; [assumption|]. destruct to as [p|]; [subst p; split; [congruence|reflexivity]|auto]. }
    destruct (Hgo k _ n A El Hf ltac:(discriminate) Er) as (a1 & a2 & a3 & a4 & a5 & idx & lst & p & h & E & Hl & Htm & Hb & Hlt). injection E as <- <- <- <- <-.
    right. exists k. split; [|exists j, ok1, ok2, rnd, from, to, m, n, A, idx, lst, p, h; auto 8].
    destruct (in_dec (list_eq_dec N.eq_dec) k (w_rolled s)) as [Hi|Hi]; [assumption|exfalso].
    pose proof (so_claim s HS _ _ _ Hs) as Hcl. rewrite Hb in Hcl. destruct Hcl as (q & -> & Hcl). subst q.
    destruct (Hcl Hi n A El) as [_ C2]. destruct (C2 ltac:(congruence)) as [_ C3]. specialize (C3 Hl). lia.
Qed.
