(* C89: a replica leaves its group before its host exits.  Model: Shutdown.v.
   Vocabulary: MembershipSpec.v, CoreTxSpec.v, RaftNetSpec.v. *)
From Verif Require Import RaftLog Raft RaftSpec RaftChain RaftNode RaftRun RaftNet RaftNetSpec RaftNetProofs Membership MembershipSpec MembershipProofs
  P_Membership P_Raft P_RaftNet UtilProofs CoreTx CoreTxSpec Shutdown ShutdownProofs.

(* what is claimed of the host's loop: when it ends, both requests have succeeded *)
Definition ends_after_leaving : Prop := forall l i t1 t2, sigterm l = Some i -> nth_error l i = Some (t1, t2) -> t1 = TxAnswer 0 /\ t2 = TxAnswer 0.
(* C89, not so: a status that is an error is an answer all the same.  A replica of a
   started group, which knows no leader yet, refuses to ask for its removal, and the
   loop ends after this first attempt, with the replica still a member. *)
Definition x_start89 : list event * net := run_cmds (x_start x_group3 1 1000 [1; 2; 3]) [].
Theorem C89_exit_after_leaving_refuted :
  ~ ends_after_leaving /\
  exists n A, net_reached toy_sizes toy_hmac x_group3 1 (fst x_start89) (snd x_start89) /\ lookup (pid 2) (w_now (snd x_start89)) = Some (n, A) /\
    relinquish_request toy_sizes toy_hmac true true 1 n = Ret (n, Now 0) /\ host_removal true n = Now E_LeaderUnknown /\
    sigterm [(TxAnswer 0, TxAnswer E_LeaderUnknown)] = Some 0%nat /\ In (pid 2) (m_all (mship n)) /\ In (pid 2) (m_voting (mship n)).
Proof.
  split.
  - intros H. destruct (H [(TxAnswer 0, TxAnswer E_LeaderUnknown)] 0%nat (TxAnswer 0) (TxAnswer E_LeaderUnknown) eq_refl eq_refl) as [_ X]. discriminate.
  - assert (Hr : net_reached toy_sizes toy_hmac x_group3 1 (fst x_start89) (snd x_start89)) by (apply run_cmds_reached; [apply x_may3; reflexivity|eexists; vm_compute; reflexivity]).
    destruct (lookup (pid 2) (w_now (snd x_start89))) as [[n A]|] eqn:El; [|vm_compute in El; discriminate]. exists n, A. split; [exact Hr|]. split; [reflexivity|]. clear Hr.
    vm_compute in El. injection El as <- <-. split; [reflexivity|]. split; [reflexivity|]. split; [reflexivity|]. split; vm_compute; tauto.
Qed.
(* C89, the part that holds: the loop ends with the first attempt at which the enclave
   answered both requests, and with no other *)
Theorem C89_exit_after_both_answers_partial :
  forall l i, sigterm l = Some i <->
  (exists s1 s2, nth_error l i = Some (TxAnswer s1, TxAnswer s2)) /\
  forall j t1 t2, (j < i)%nat -> nth_error l j = Some (t1, t2) -> t1 = TxErr \/ t2 = TxErr.
Proof. exact sigterm_spec. Qed.

(* C89: a replica that is asked to remove another, and does not refuse, leads, and has
   taken an entry into its log that sets its membership without that other one and
   otherwise unchanged *)
Theorem C89_removal_leaves_out_exactly_one :
  forall sz hmac part from ok rnd n n' l,
  wf_members (mship n) -> peer_removal sz hmac part from ok rnd n = Ret (n', WhenApplied l) ->
  is_leader n = true /\ from <> n_me n /\ In from (m_all (mship n)) /\
  exists g m, logged_at sz hmac n (IMember g) l /\ from_proto g = (m, M_OK) /\
    (forall p, In p (m_all m) <-> In p (m_all (mship n)) /\ p <> from) /\
    (forall p, In p (m_voting m) <-> In p (m_voting (mship n)) /\ p <> from).
Proof.
  intros sz hmac part from ok rnd n n' l Hw E. unfold peer_removal in E. destruct part; [|discriminate]. cbn [negb] in E. cbv zeta in E.
  destruct (existsb _ _) eqn:Ex; [|discriminate]. cbn [negb] in E. apply bind_inv in E as ([n1 a] & E1 & E). cbn [fst snd] in E.
  destruct (a_loc a) as [[l1 er]|] eqn:Ea; [|discriminate]. destruct er; try discriminate. injection E as <- <-.
  destruct (accepted_member _ _ _ _ _ _ _ _ _ E1 Ea) as (m & Em & Hl & Hu & Hv). pose proof (without_members _ _ _ Hw Em) as Hp.
  split; [assumption|]. apply existsb_exists in Ex as (r & Hr & Eb). apply beq_eq in Eb. unfold as_proto in Hr. apply in_map_iff in Hr as (q & <- & Hq). cbn [rp_id] in Eb. subst q.
  split.
  { intros ->. assert (Hm : ~ In (n_me n) (m_voting m)) by (intros X; now apply Hp in X as [_ X]).
    edestruct (refused_member sz hmac) as (l2 & er & E2 & X & _); [|exact E1|congruence]. intros m2 E2. congruence. }
  split; [assumption|]. exists (without from (as_proto (mship n))), m. split; [exists ok, rnd, n1, a; auto|]. split; [assumption|]. split; intros p; apply Hp.
Qed.
(* C89: nobody removes itself: asked to, a replica changes nothing and says an error *)
Theorem C89_nobody_removes_itself :
  forall sz hmac part ok rnd n n' x,
  wf_members (mship n) -> peer_removal sz hmac part (n_me n) ok rnd n = Ret (n', x) ->
  (exists code, x = Now code /\ code <> 0) /\ n_log n' = n_log n /\ mship n' = mship n.
Proof.
  intros sz hmac part ok rnd n n' x Hw E. unfold peer_removal in E. destruct part; cbn [negb] in E; [|injection E as <- <-; split; [eexists; split; [reflexivity|discriminate]|auto]]. cbv zeta in E.
  destruct (existsb _ _) eqn:Ex; cbn [negb] in E; [|injection E as <- <-; split; [eexists; split; [reflexivity|discriminate]|auto]].
  apply bind_inv in E as ([n1 a] & E1 & E). destruct (fun H => refused_member sz hmac ok rnd _ n n1 a H E1) as (l & er & Ea & Hne & Hc & ->).
  { intros m Em X. apply (without_members _ _ _ Hw Em) in X as [_ X]. congruence. }
  rewrite Ea in E. destruct er; try congruence; injection E as <- <-; (split; [eexists; split; [reflexivity|exact Hc]|split; reflexivity]).
Qed.
(* C89: the only member of a group never leaves it, and its host never exits: asked to
   give up leading it leads on, takes no more requests, and the entry at which the host
   would be answered never comes, whatever else it is called with *)
Theorem C89_last_replica_never_leaves :
  forall sz hmac ok rnd n n1 x h n2 rs,
  sole n -> relinquish_request sz hmac true ok rnd n = Ret (n1, x) ->
  Forall (fun o => match o with OReceive _ _ _ from _ => from <> n_me n | _ => True end) h ->
  exec (rstep sz hmac) n1 h = Ret (n2, rs) ->
  is_leader n2 = true /\ n_term n2 = n_term n1 /\ Forall (fun a => forall l er, a_loc a = Some (l, er) -> er = RE_NotLeader) rs /\
  exists l, x = WhenApplied l /\ at_idx (n_log n2) (lc_idx l) = None.
Proof.
  intros sz hmac ok rnd n n1 x h n2 rs Hs E Hf Er. destruct (sole_relinquish sz hmac ok rnd n n1 x Hs E) as (H1 & Hme & ->). rewrite <- Hme in Hf.
  destruct (stuck_run sz hmac h n1 n2 rs H1 Hf Er) as ((_ & _ & _ & fs & hb & Hr) & (L1 & _ & L2) & H3). split; [unfold is_leader; now rewrite Hr|]. split; [assumption|]. split; [assumption|].
  eexists. split; [reflexivity|]. cbn [lc_idx]. rewrite L1. unfold at_idx, next_idx, last_idx. destruct (l_entries (n_log n1)) as [|e es].
  - destruct (_ <? _); [reflexivity|]. now destruct (N.to_nat _).
  - destruct (_ <? _); [reflexivity|]. apply nth_error_None. cbn [length]. lia.
Qed.

(* not vacuous: 1 is elected and removes 3 (of three voters); 2, asked to remove
   itself, refuses; a group of one does not give up leading *)
Definition x_led89 : list event * net := run_cmds (x_start x_group3 1 1000 [1; 2; 3]) ([Tick 1; Pass 1 2; Pass 2 1; Pass 1 3; Pass 3 1] ++ both 3 1 2 ++ both 3 1 3).
Definition x_node89 (k : N) : node := match lookup (pid k) (w_now (snd x_led89)) with Some (n, _) => n | None => Node 0 [] (Members [] []) [] x_cfg 0 0 None (Follower None 0) (empty_log 0) 0 0 0 [] end.
Definition shows (o : outcome (node * next)) : option (next * N) := match o with Ret (n, x) => Some (match x with WhenApplied l => WhenApplied (Loc (lc_term l) (lc_idx l) []) | y => y end, psize (m_voting (mship n))) | Crash => None end.
Example C89_meets :
  wf_members (mship (x_node89 1)) /\ wf_members (mship (x_node89 2)) /\
  shows (peer_removal toy_sizes toy_hmac true (pid 3) true 1 (x_node89 1)) = Some (WhenApplied (Loc 1 2 []), 2) /\
  shows (peer_removal toy_sizes toy_hmac true (pid 1) true 1 (x_node89 1)) = Some (Now 903, 3) /\
  shows (peer_removal toy_sizes toy_hmac true (pid 2) true 1 (x_node89 2)) = Some (Now 504, 3) /\
  shows (peer_removal toy_sizes toy_hmac true (pid 4) true 1 (x_node89 1)) = Some (Now E_RemoveNonexistent, 3) /\
  host_removal true (x_node89 1) = Now E_LeaderRemovingSelf /\ host_removal true (x_node89 2) = AskLeader (pid 1) /\ host_removal false (x_node89 2) = Now E_RaftState /\
  sigterm [(TxErr, TxAnswer 0); (TxAnswer 0, TxErr); (TxAnswer 0, TxAnswer 507); (TxAnswer 0, TxAnswer 0)] = Some 2%nat.
Proof.
  assert (H : forall k, mship (x_node89 k) = x_group3 -> wf_members (mship (x_node89 k))) by (intros k ->; exact (proj1 (x_may3 1 1000 ltac:(reflexivity)))).
  split; [apply H; vm_compute; reflexivity|]. split; [apply H; vm_compute; reflexivity|]. clear H. repeat (split; [vm_compute; reflexivity|]). vm_compute. reflexivity.
Qed.
Definition x_one89 : outcome node := new_node toy_sizes toy_hmac 77 (pid 1) (first_members (pid 1)) (empty_log 10000) x_cfg false 0 true 1.
Example C89_last_replica_meets :
  match x_one89 with
  | Ret n => sole n /\
      match relinquish_request toy_sizes toy_hmac true true 1 n with
      | Ret (n1, WhenApplied l) => lc_idx l = 3 /\
          match exec (rstep toy_sizes toy_hmac) n1 [OTick true 1; OTake; OTake; ORequest true 1 (IData [42]); ORelinquish true 1; OTick true 1; OTake] with
          | Ret (n2, rs) => is_leader n2 = true /\ n_applied n2 = 2 | Crash => False
          end
      | _ => False
      end
  | Crash => False
  end.
Proof.
  destruct x_one89 as [n|] eqn:E; vm_compute in E; [|discriminate]. injection E as <-. split; [|vm_compute; auto].
  split; [vm_compute; reflexivity|]. split; [vm_compute; reflexivity|]. split; [reflexivity|]. eexists; eexists; reflexivity.
Qed.

Print Assumptions C89_exit_after_leaving_refuted.
Print Assumptions C89_exit_after_both_answers_partial.
Print Assumptions C89_removal_leaves_out_exactly_one.
Print Assumptions C89_nobody_removes_itself.
Print Assumptions C89_last_replica_never_leaves.
