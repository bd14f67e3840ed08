(* C87: the membership that a replica acts by is that of its log.  Vocabulary:
   MemberLogSpec.v, RaftMoveSpec.v, RaftNetSpec.v. *)
From Verif Require Import RaftLog Raft RaftSpec RaftChain RaftNode RaftRun RaftNet RaftNetSpec RaftNetProofs RaftMoveSpec RaftMoveProofs
  Membership MembershipSpec MembershipProofs P_Membership P_Raft P_RaftNet UtilProofs P_RaftFresh P_RaftComplete P_RaftMove MemberLogSpec MemberLogProofs.

(* C87: at all times a replica counts votes, quorums and voters by the last
   membership that an entry of its own log sets (the first one if none does), and
   holds as committed the last one that a committed entry sets: whether the entry
   was asked for here or received, and also after another leader's entries replaced
   some that set a membership *)
Theorem C87_membership_is_that_of_the_log :
  forall sz hmac M sm L0 evs s k n A,
  net_reached_from sz hmac M sm L0 evs s -> changes_overlap M sm evs -> no_clash s -> was s k n A ->
  (exists d, l_entries (n_log n) = skipn d A /\ l_oldest (n_log n) = 1 + N.of_nat d) /\
  mship n = members_after M (beyond L0 A) /\
  n_mem n = members_after M (beyond L0 (upto (n_commit n) A)).
Proof.
  intros sz hmac M sm L0 evs s k n A Hr Hc Hn Hw. destruct (reached_fits _ _ _ _ _ _ _ Hr Hc Hn) as [HF HC].
  specialize (HC _ _ _ Hw). destruct (HF _ _ _ Hw) as [H1 H2 H3 H4 [H5 H6]]. split; [destruct H1 as (d & E1 & E2 & _); eauto|]. split; [|assumption].
  unfold mship. rewrite H6, mems_last, H5, <- after_app. f_equal. unfold beyond, upto, llen in *.
  rewrite <- (firstn_skipn (N.to_nat (n_commit n)) A) at 3. rewrite skipn_app, firstn_length.
  replace (length L0 - Nat.min (N.to_nat (n_commit n)) (length A))%nat with 0%nat by lia. reflexivity.
Qed.
(* what it decides by it *)
Theorem C87_votes_and_quorums_by_the_log :
  forall sz hmac M sm L0 evs s k n A,
  net_reached_from sz hmac M sm L0 evs s -> changes_overlap M sm evs -> no_clash s -> was s k n A ->
  let m := members_after M (beyond L0 A) in
  (voting n = true <-> In k (m_voting m)) /\ quorum n = quorum_size (psize (m_voting m)) sm /\
  (is_leader n = true -> In k (m_voting m)).
Proof.
  intros sz hmac M sm L0 evs s k n A Hr Hc Hn Hw m.
  destruct (C87_membership_is_that_of_the_log _ _ _ _ _ _ _ _ _ _ Hr Hc Hn Hw) as [_ [Hm _]].
  assert (Hr' : net_reached sz hmac M sm evs s) by (destruct Hr as (g & xs & s0 & Hr); now exists g, L0, xs, s0).
  destruct Hc as (F & HF & Ha & Ho). pose proof (fun Hl => C27_leader_votes_partial _ _ _ _ _ _ _ _ _ _ Hr' HF Ha Ho Hn Hw Hl) as Hlv.
  destruct (moved_inv _ _ _ _ _ _ _ Hr' HF Ha Ho Hn) as [HM [Hwf [Ho' [Hx [L1 HI]]]]].
  destruct (RaftMoveProofs.gi_past _ _ _ _ _ _ HI _ _ _ Hw) as [HR _]. destruct (ri_id _ _ _ _ _ _ _ _ _ _ _ HR) as [Hk Hsm].
  unfold voting, quorum. rewrite Hm in *. fold m in Hlv |- *. rewrite Hk, Hsm. split; [apply pmem_In|]. split; [reflexivity|exact Hlv].
Qed.
(* so two replicas that know as much to be committed have the same committed
   membership *)
Theorem C87_same_commit_same_membership :
  forall sz hmac M sm L0 evs s k1 n1 A1 k2 n2 A2,
  net_reached_from sz hmac M sm L0 evs s -> changes_overlap M sm evs -> no_clash s -> psize (w_rolled s) <= sm ->
  was s k1 n1 A1 -> was s k2 n2 A2 -> n_commit n1 = n_commit n2 -> n_mem n1 = n_mem n2.
Proof.
  intros sz hmac M sm L0 evs s k1 n1 A1 k2 n2 A2 Hr Hc Hn Hrb W1 W2 Hcm.
  destruct (C87_membership_is_that_of_the_log _ _ _ _ _ _ _ _ _ _ Hr Hc Hn W1) as [_ [_ ->]].
  destruct (C87_membership_is_that_of_the_log _ _ _ _ _ _ _ _ _ _ Hr Hc Hn W2) as [_ [_ ->]].
  destruct (reached_fits _ _ _ _ _ _ _ Hr Hc Hn) as [_ HC]. pose proof (HC _ _ _ W1) as C1. pose proof (HC _ _ _ W2) as C2.
  assert (Hr' : net_reached sz hmac M sm evs s) by (destruct Hr as (g & xs & s0 & Hr); now exists g, L0, xs, s0).
  destruct Hc as (F & HF & Ha & Ho). do 2 f_equal.
  assert (L1 : llen (upto (n_commit n1) A1) = n_commit n1) by (apply upto_len; lia). assert (L2 : llen (upto (n_commit n2) A2) = n_commit n2) by (apply upto_len; lia).
  assert (Hp : forall a b : list entry, llen a = llen b -> prefix a b -> a = b).
  { intros a b Hl [c ->]. unfold llen in Hl. rewrite app_length in Hl. destruct c; [now rewrite app_nil_r|cbn in Hl; lia]. }
  destruct (C27_logs_while_quorums_overlap_partial _ _ _ _ _ _ _ _ _ _ _ _ _ Hr' HF Ha Ho Hn Hrb W1 W2) as [X|X]; [|symmetry]; (apply Hp; [congruence|exact X]).
Qed.

(* Not vacuous: 1..4 vote.  1 leads and asks that 5 vote as well, which reaches
   nobody.  2 is elected by 2, 3, 4, and its first entry replaces 1's.  2 then has 5
   vote, which all but 4 learn. *)
Definition x_cmds_drop : list cmd :=
  [Tick 1; Pass 1 2; Pass 2 1; Pass 1 3; Pass 3 1] ++ both 2 1 2 ++ both 2 1 3 ++
  [Ask 1 (x_change [1; 2; 3; 4; 5]); Tick 2; Tick 2; Pass 2 3; Pass 3 2; Pass 2 4; Pass 4 2] ++ both 4 2 3 ++ both 4 2 4 ++ both 4 2 1 ++
  [Ask 2 (x_change [1; 2; 3; 4; 5])] ++ both 4 2 3 ++ both 4 2 1 ++ both 4 2 5 ++ both 3 2 3 ++ both 3 2 1 ++ both 3 2 5.
Definition x_net_drop : list event * net := run_cmds (x_start x_group5 0 1000 [1; 2; 3; 4; 5]) x_cmds_drop.
(* how often its voters changed: how many vote for replica k, state after state *)
Fixpoint steps_of (l : list N) : list N :=
  match l with
  | x :: (y :: _) as l' => if x =? y then steps_of l' else x :: steps_of l'
  | _ => l
  end.
Definition votes_seen (k : bytes) (s : net) : list N :=
  steps_of (map (fun x => psize (m_voting (mship (fst (snd x))))) (filter (fun x => if list_eq_dec N.eq_dec (fst x) k then true else false) (w_past s))).
Example C87_meets :
  net_reached_from toy_sizes toy_hmac x_group5 0 [] (fst x_net_drop) (snd x_net_drop) /\ changes_overlap x_group5 0 (fst x_net_drop) /\
  no_clash (snd x_net_drop) /\ psize (w_rolled (snd x_net_drop)) <= 0 /\
  map (fun k => votes_seen (pid k) (snd x_net_drop)) [1; 2; 3; 4; 5] = [[4; 5; 4; 5]; [4; 5]; [4; 5]; [4]; [4; 5]] /\
  map (fun x => psize (m_voting (n_mem (fst (snd x))))) (w_now (snd x_net_drop)) = [5; 5; 5; 4; 5].
Proof.
  assert (Nv : NoDup (map pid [1; 2; 3; 4])).
  { cbn [map]. repeat (constructor; [intros X; cbn in X; repeat (destruct X as [X|X]; [discriminate|]); destruct X|]). constructor. }
  split.
  { unfold x_net_drop. assert (E : exists s0, x_start x_group5 0 1000 [1; 2; 3; 4; 5] = Ret s0) by (eexists; vm_compute; reflexivity).
    destruct E as [s0 E]. exists 77, (map (x_seat 1000) [1; 2; 3; 4; 5]), s0. split; [apply x_may5|]. split; [exact E|]. rewrite E. reflexivity. }
  split.
  { exists (fun m => wf_members m /\ voters_or_one_more (map pid [1; 2; 3; 4]) (pid 5) m). split; [split; [exact (proj1 (x_may5 1000))|left; cbn; tauto]|]. split.
    - intros k ok rnd g m Hin Em. split; [now apply from_proto_wf in Em|]. apply x_one_more. revert k ok rnd g m Hin Em. apply asked_b_sound. vm_compute. reflexivity.
    - apply one_more_overlap; [exact Nv|reflexivity|reflexivity|]. intros X; cbn in X; repeat (destruct X as [X|X]; [discriminate|]); destruct X. }
  split; [apply no_clash_b_sound; vm_compute; reflexivity|]. split; [vm_compute; discriminate|]. split; vm_compute; reflexivity.
Qed.

Print Assumptions C87_membership_is_that_of_the_log.
Print Assumptions C87_votes_and_quorums_by_the_log.
Print Assumptions C87_same_commit_same_membership.
