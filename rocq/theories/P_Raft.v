(* C20-C22, C24, and C26 for every reachable replica.  One replica, whatever
   calls are made and whatever messages it is given.  Vocabulary: RaftSpec.v. *)
From Verif Require Import RaftLog Raft RaftSpec RaftChain RaftNode RaftRun RaftInj Hist Membership MembershipSpec MembershipProofs P_Membership.

(* C20: entries at or below the commit or promise index stay as they are.  An
   entry leaves the log only after it was handed to the application. *)
Theorem C20_committed_and_promised_never_change :
  forall sz hmac n ops n' rs, reached sz hmac n -> exec (rstep sz hmac) n ops = Ret (n', rs) ->
  n_commit n <= n_commit n' /\ n_promise n <= n_promise n' /\
  forall i e, i <= N.max (n_commit n) (n_promise n) -> at_idx (n_log n) i = Some e ->
    at_idx (n_log n') i = Some e \/ (at_idx (n_log n') i = None /\ i < n_applied n').
Proof. exact keeps. Qed.

(* C21: what is handed out over a run are the entries of its log at the
   consecutive indexes from where the replica started, none of them above the
   commit index *)
Theorem C21_delivered_once_in_order :
  forall sz hmac n0 A0 ops n rs, born sz hmac n0 A0 -> exec (rstep sz hmac) n0 ops = Ret (n, rs) ->
  exists es, delivered rs = numbered (n_applied n0 + 1) es /\
    n_applied n = n_applied n0 + llen es /\ n_applied n <= n_commit n /\
    upto (n_applied n) (full_log sz hmac n0 A0 ops) = upto (n_applied n0) A0 ++ es.
Proof.
  intros sz hmac n0 A0 ops n rs Hb E. pose proof (born_ok sz hmac n0 A0 Hb) as H0.
  destruct (delivers sz hmac ops n0 A0 n rs H0 E) as [A [es [HA [-> [D1 [D2 D3]]]]]].
  exists es. do 2 (split; [assumption|]). split; [apply (ri_ac _ _ _ _ _ _ _ _ _ _ _ (proj1 HA))|assumption].
Qed.
(* ... and when it says there is nothing more, everything committed was handed out *)
Theorem C21_nothing_left_out :
  forall sz hmac n n' a, reached sz hmac n -> rstep sz hmac n OTake = Ret (n', a) -> a_taken a = None ->
  n_applied n = n_commit n.
Proof.
  intros sz hmac n n' a Hr E Ht. destruct (reached_ok sz hmac n Hr) as [A HA]. pose proof (ri_ac _ _ _ _ _ _ _ _ _ _ _ (proj1 HA)) as Hac.
  cbn [rstep] in E. apply bind_inv in E as [[n1 t] [E E1]]. unfold sent in E1. injection E1 as <- <-. cbn [a_taken] in Ht. subst t.
  unfold take_committed in E. destruct (n_commit n <=? n_applied n) eqn:Ec; [lia|]. destruct (at_idx _ _); discriminate.
Qed.

(* C22 *)
Theorem C22_terms_never_go_back :
  forall sz hmac n ops n' rs, reached sz hmac n -> exec (rstep sz hmac) n ops = Ret (n', rs) -> n_term n <= n_term n'.
Proof.
  intros sz hmac n ops n' rs Hr E. destruct (reached_ok sz hmac n Hr) as [A HA].
  destruct (run_ok sz hmac ops n A n' rs HA E) as [A' [_ [Hv _]]]. apply (eh_term _ _ _ _ Hv).
Qed.
(* over a whole run, the votes given away in one term all go to the same peer
   (its own candidacy being a vote for itself) *)
Theorem C22_one_vote_per_term :
  forall sz hmac n0 A0 ops n rs, born sz hmac n0 A0 -> exec (rstep sz hmac) n0 ops = Ret (n, rs) ->
  forall t c1 c2, In (t, c1) (ballots (n_me n0) rs) -> In (t, c2) (ballots (n_me n0) rs) -> c1 = c2.
Proof. intros sz hmac n0 A0 ops n rs Hb E. exact (one_vote sz hmac ops n0 A0 n rs (born_ok sz hmac n0 A0 Hb) E). Qed.
(* a vote is granted only in answer to a request, to the one who asked, in the
   term of the request, and when the log named in it is up to date *)
Theorem C22_votes_only_for_up_to_date_logs :
  forall sz hmac n o n' a to m, reached sz hmac n -> rstep sz hmac n o = Ret (n', a) ->
  In (to, m) (a_sent a) -> m_body m = VoteResp true ->
  exists ok1 ok2 rnd from q lidx lterm h, o = OReceive ok1 ok2 rnd from q /\ to = Some from /\ m_term m = m_term q /\
    m_body q = VoteReq lidx lterm h /\ up_to_date (n_log n) lidx lterm.
Proof. exact grants_up_to_date. Qed.

(* C24: the log of every replica is a hash chain *)
Theorem C24_logs_are_chained :
  forall sz hmac n A, reached_with sz hmac n A -> chained hmac A /\ holds (n_log n) A.
Proof. intros sz hmac n A H. apply reached_with_ok in H. destruct (ok_holds hmac n A H). auto. Qed.
(* C24: the same hash at an index means the same entries up to there, or the two
   logs contain a collision *)
Theorem C24_equal_hash_equal_prefix :
  forall sz hmac n1 A n2 B i a b, reached_with sz hmac n1 A -> reached_with sz hmac n2 B ->
  nth_entry A i = Some a -> nth_entry B i = Some b -> e_hash a = e_hash b ->
  Forall entry_typed A -> Forall entry_typed B -> llen A < 2 ^ 64 ->
  upto i A = upto i B \/ collision hmac A B.
Proof.
  intros sz hmac n1 A n2 B i a b H1 H2 Ha Hb E TA TB Hl.
  destruct (C24_logs_are_chained _ _ _ _ H1) as [C1 _], (C24_logs_are_chained _ _ _ _ H2) as [C2 _].
  destruct (chain_inj_idx hmac A B i a b C1 C2 Ha Hb E) as [|H]; [auto|right]. now apply clash_collision.
Qed.
(* what the two still store *)
Theorem C24_equal_hash_equal_stored_entries :
  forall sz hmac n1 A n2 B i a b, reached_with sz hmac n1 A -> reached_with sz hmac n2 B ->
  at_idx (n_log n1) i = Some a -> at_idx (n_log n2) i = Some b -> e_hash a = e_hash b ->
  Forall entry_typed A -> Forall entry_typed B -> llen A < 2 ^ 64 ->
  (forall j x y, j <= i -> at_idx (n_log n1) j = Some x -> at_idx (n_log n2) j = Some y -> x = y) \/ collision hmac A B.
Proof.
  intros sz hmac n1 A n2 B i a b H1 H2 Ha Hb E TA TB Hl.
  pose proof (reached_with_ok _ _ _ _ H1) as [R1 _]. pose proof (reached_with_ok _ _ _ _ H2) as [R2 _].
  pose proof (ri_st _ _ _ _ _ _ _ _ _ _ _ R1) as S1. pose proof (ri_st _ _ _ _ _ _ _ _ _ _ _ R2) as S2.
  destruct (C24_equal_hash_equal_prefix sz hmac n1 A n2 B i a b H1 H2) as [Hu|]; auto.
  - eapply st_at_some; eassumption.
  - eapply st_at_some; eassumption.
  - left. intros j x y Hj Hx Hy. apply (st_at_some _ _ _ _ _ S1) in Hx. apply (st_at_some _ _ _ _ _ S2) in Hy.
    rewrite (upto_nth j i A B Hu Hj) in Hx. congruence.
Qed.
(* C24: an append request is let in only if, wherever it names an entry by the
   index and term of one the replica stores, it names it with the same hash *)
Theorem C24_messages_are_checked_against_the_chain :
  forall hmac sz n m from prev pterm commit es promise ph, reached sz hmac n ->
  m_body m = AppReq prev pterm commit es promise ph -> validate_msg m from n = Ret RE_OK ->
  (forall e, at_idx (n_log n) prev = Some e -> e_term e = pterm -> ph = e_hash e) /\
  (forall j x e, nth_error es j = Some x -> at_idx (n_log n) (prev + 1 + N.of_nat j) = Some e -> e_term e = e_term x ->
     e_hash x = e_hash e).
Proof. intros hmac sz. exact (validated_hashes sz hmac). Qed.

(* C20: neither a vote request nor an append request is let in that names, at an
   index the replica has promised to keep, an entry of a later term *)
Theorem C20_messages_cannot_contradict_a_promise :
  forall sz hmac n m from i t e, reached sz hmac n -> validate_msg m from n = Ret RE_OK -> names_entry m i t ->
  at_idx (n_log n) i = Some e -> i <= n_promise n -> t <= e_term e.
Proof. intros. eapply validated_promises; eauto. Qed.

(* C26: no premise on the membership: reachable replicas have proper ones *)
Theorem C26_reachable_replicas_request_only_safe_steps :
  forall sz hmac ok rnd g n n' l to,
  reached sz hmac n -> from_proto g = (to, M_OK) -> psize (m_all to) < 2 ^ 63 ->
  log_request sz hmac ok rnd (IMember g) n = Ret (n', (l, RE_OK)) ->
  is_leader n = true /\ n_unc n = [] /\ safe_step (n_me n) (n_sm n) (n_mem n) to.
Proof.
  intros sz hmac ok rnd g n n' l to Hr Hp Hs E. destruct (reached_ok sz hmac n Hr) as [A [HR _]].
  apply (C26_only_safe_steps_requested sz hmac ok rnd g n n' l to); auto. apply (ri_ms _ _ _ _ _ _ _ _ _ _ _ HR).
Qed.

(* --- concrete cases ------------------------------------------------------- *)
(* any function can stand in for the keyed hash *)
Definition toy_hmac (k m : bytes) : bytes :=
  zeros 24 ++ be64 (fold_left (fun a b => (a * 257 + b + 1) mod 2 ^ 64) (k ++ m) 7).
Definition toy_sizes := Sizes 8 32 24 32 40.
Definition x_cfg := RConfig 5 2 10 1000.
Definition x_three : members := Members [pid 1; pid 2; pid 3] [pid 1; pid 2; pid 3].
Definition x_new : outcome node := new_node toy_sizes toy_hmac 77 (pid 1) x_three (empty_log 10000) x_cfg false 0 true 1.
Definition x_hash1 : bytes := toy_hmac (zeros 32) (tagged INone 1 1).
Definition x_hash2 : bytes := toy_hmac x_hash1 (tagged (IData [42]) 2 1).
(* elected by 2 in term 1, takes a request, has it acknowledged, promised and
   committed, hands it out; then hears of term 5 and votes for 3 *)
Definition x_ops : list rop :=
  [OTick true 3; OReceive true true 3 (pid 2) (RMsg 77 1 (VoteResp true));
   ORequest true 3 (IData [42]);
   OReceive true true 3 (pid 2) (RMsg 77 1 (AppResp true 2 2 0 x_hash2));
   OReceive true true 3 (pid 2) (RMsg 77 1 (AppResp true 2 2 2 x_hash2));
   OTake; OTake; OTake;
   OReceive true true 3 (pid 3) (RMsg 77 5 (VoteReq 2 1 x_hash2));
   OReceive true true 3 (pid 2) (RMsg 77 5 (VoteReq 2 1 x_hash2))].
Definition x_run : outcome (node * list ranswer) :=
  match x_new with Ret n0 => exec (rstep toy_sizes toy_hmac) n0 x_ops | Crash => Crash end.
Lemma x_born n0 : x_new = Ret n0 -> born toy_sizes toy_hmac n0 [].
Proof.
  intros E. exists 77, (pid 1), x_three, (empty_log 10000), x_cfg, false, 0, true, 1%Z, [].
  split; [|split; [exact I|split; [|split; [right; reflexivity|split; [exact E|]]]]].
  - split; [|split]; cbn -[pid blt].
    + repeat split; intros q Hq; cbn -[pid blt] in Hq; intuition (subst; vm_compute; reflexivity).
    + repeat split; intros q Hq; cbn -[pid blt] in Hq; intuition (subst; vm_compute; reflexivity).
    + intros q Hq; exact Hq.
  - exists 0%nat; repeat split; auto.
  - vm_compute in E. injection E as <-. reflexivity.
Qed.
Example x_story : exists n0 n rs, born toy_sizes toy_hmac n0 [] /\ exec (rstep toy_sizes toy_hmac) n0 x_ops = Ret (n, rs) /\
  reached toy_sizes toy_hmac n /\
  (n_term n, n_commit n, n_promise n, n_applied n) = (5, 2, 2, 2) /\
  delivered rs = numbered 1 [Entry 1 INone x_hash1; Entry 1 (IData [42]) x_hash2] /\
  ballots (pid 1) rs = [(1, pid 1); (5, pid 3)] /\
  full_log toy_sizes toy_hmac n0 [] x_ops = [Entry 1 INone x_hash1; Entry 1 (IData [42]) x_hash2].
Proof.
  assert (E0 : exists n0, x_new = Ret n0) by (eexists; vm_compute; reflexivity). destruct E0 as [n0 E0].
  pose proof (x_born n0 E0) as Hb.
  assert (E : exists n rs, exec (rstep toy_sizes toy_hmac) n0 x_ops = Ret (n, rs)).
  { vm_compute in E0. injection E0 as <-. eexists _, _. vm_compute. reflexivity. }
  destruct E as [n [rs E]]. exists n0, n, rs. split; [exact Hb|]. split; [exact E|].
  split; [exists n0, [], x_ops, rs; auto|].
  vm_compute in E0. injection E0 as <-. vm_compute in E. injection E as <- <-.
  split; [vm_compute; reflexivity|]. split; [vm_compute; reflexivity|]. split; vm_compute; reflexivity.
Qed.
(* two different logs in play: another leader's entry replaces one that was
   neither committed nor promised *)
Definition x_follower_ops : list rop :=
  [OReceive true true 3 (pid 2) (RMsg 77 1 (AppReq 0 0 0 [Entry 1 (IData [1]) (toy_hmac (zeros 32) (tagged (IData [1]) 1 1))] 0 []));
   OReceive true true 3 (pid 3) (RMsg 77 2 (AppReq 0 0 0 [Entry 2 (IData [2]) (toy_hmac (zeros 32) (tagged (IData [2]) 1 2))] 1 []));
   OReceive true true 3 (pid 2) (RMsg 77 3 (AppReq 0 0 0 [Entry 3 (IData [3]) (toy_hmac (zeros 32) (tagged (IData [3]) 1 3))] 1 []))].
Example x_follower : exists n0 n rs, born toy_sizes toy_hmac n0 [] /\
  exec (rstep toy_sizes toy_hmac) n0 x_follower_ops = Ret (n, rs) /\ n_promise n = 1 /\
  match at_idx (n_log n) 1 with Some e => e_inner e = IData [2] | None => False end.
Proof.
  assert (E0 : exists n0, x_new = Ret n0) by (eexists; vm_compute; reflexivity). destruct E0 as [n0 E0].
  pose proof (x_born n0 E0) as Hb.
  vm_compute in E0. injection E0 as <-. eexists _, _, _. split; [exact Hb|]. split; [vm_compute; reflexivity|].
  split; vm_compute; reflexivity.
Qed.
Example x_typed : Forall entry_typed [Entry 1 INone x_hash1; Entry 1 (IData [42]) x_hash2].
Proof. repeat constructor. Qed.

Print Assumptions C20_committed_and_promised_never_change.
Print Assumptions C21_delivered_once_in_order.
Print Assumptions C21_nothing_left_out.
Print Assumptions C22_terms_never_go_back.
Print Assumptions C22_one_vote_per_term.
Print Assumptions C22_votes_only_for_up_to_date_logs.
Print Assumptions C24_logs_are_chained.
Print Assumptions C24_equal_hash_equal_prefix.
Print Assumptions C24_equal_hash_equal_stored_entries.
Print Assumptions C20_messages_cannot_contradict_a_promise.
Print Assumptions C24_messages_are_checked_against_the_chain.
Print Assumptions C26_reachable_replicas_request_only_safe_steps.
