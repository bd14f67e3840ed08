(* C27, C23: a replica group whose membership changes.  Vocabulary: RaftMoveSpec.v,
   RaftNetSpec.v.  That the agreement does not hold for all histories of changes
   is C27_agreement_across_membership_changes_refuted in P_RaftNet.v. *)
From Verif Require Import RaftLog Raft RaftSpec RaftChain RaftNode RaftRun RaftNet RaftNetSpec RaftNetProofs RaftMoveSpec RaftMoveProofs
  Membership MembershipSpec MembershipProofs P_Membership P_Raft P_RaftNet UtilProofs P_RaftFresh P_RaftComplete.

(* C27: whatever changes are asked for, committed or abandoned, in any order: as
   long as any two quorums of the memberships asked for (and the first one) have
   more than super_majority replicas in common, two replicas' committed entries at
   one index are the same *)
Theorem C27_agreement_while_quorums_overlap_partial :
  forall sz hmac M sm (F : members -> Prop) evs s k1 n1 A1 k2 n2 A2 i e1 e2,
  net_reached sz hmac M sm evs s -> F M -> asked_within F evs -> overlapping sm F -> no_clash s -> psize (w_rolled s) <= sm ->
  was s k1 n1 A1 -> was s k2 n2 A2 -> i <= n_commit n1 -> i <= n_commit n2 ->
  nth_entry A1 i = Some e1 -> nth_entry A2 i = Some e2 -> e1 = e2.
Proof.
  intros sz hmac M sm F evs s k1 n1 A1 k2 n2 A2 i e1 e2 Hr HF Ha Ho Hn Hrb. intros.
  destruct (moved_inv _ _ _ _ _ _ _ Hr HF Ha Ho Hn) as [HM [Hw [Ho' [Hx [L0 HI]]]]].
  eapply (RaftMoveProofs.agree_entry hmac M sm L0 (wfF F) HM Hw Ho' (within F) Hx s k1 n1 A1 k2 n2 A2); eassumption.
Qed.
(* ... one committed log is a prefix of the other ... *)
Theorem C27_logs_while_quorums_overlap_partial :
  forall sz hmac M sm (F : members -> Prop) evs s k1 n1 A1 k2 n2 A2,
  net_reached sz hmac M sm evs s -> F M -> asked_within F evs -> overlapping sm F -> no_clash s -> psize (w_rolled s) <= sm ->
  was s k1 n1 A1 -> was s k2 n2 A2 ->
  prefix (upto (n_commit n1) A1) (upto (n_commit n2) A2) \/ prefix (upto (n_commit n2) A2) (upto (n_commit n1) A1).
Proof.
  intros sz hmac M sm F evs s k1 n1 A1 k2 n2 A2 Hr HF Ha Ho Hn Hrb. intros.
  destruct (moved_inv _ _ _ _ _ _ _ Hr HF Ha Ho Hn) as [HM [Hw [Ho' [Hx [L0 HI]]]]].
  eapply (RaftMoveProofs.commits_agree hmac M sm L0 (wfF F) HM Hw Ho' (within F) Hx s k1 n1 A1 k2 n2 A2); eassumption.
Qed.
(* ... the databases are fed the same entries ... *)
Theorem C27_applied_while_quorums_overlap_partial :
  forall sz hmac M sm (F : members -> Prop) evs s k1 k2 i e1 e2,
  net_reached sz hmac M sm evs s -> F M -> asked_within F evs -> overlapping sm F -> no_clash s -> psize (w_rolled s) <= sm ->
  In (k1, (i, e1)) (w_taken s) -> In (k2, (i, e2)) (w_taken s) -> e1 = e2.
Proof.
  intros sz hmac M sm F evs s k1 k2 i e1 e2 Hr HF Ha Ho Hn Hrb T1 T2.
  destruct (moved_inv _ _ _ _ _ _ _ Hr HF Ha Ho Hn) as [HM [Hw [Ho' [Hx [L0 HI]]]]].
  destruct (RaftMoveProofs.gi_taken _ _ _ _ _ _ HI _ _ _ T1) as [n1 [A1 [I1 [C1 E1]]]], (RaftMoveProofs.gi_taken _ _ _ _ _ _ HI _ _ _ T2) as [n2 [A2 [I2 [C2 E2]]]].
  eapply (RaftMoveProofs.agree_entry hmac M sm L0 (wfF F) HM Hw Ho' (within F) Hx s k1 n1 A1 k2 n2 A2); eassumption.
Qed.
(* ... and no term has two leaders *)
Theorem C27_one_leader_while_quorums_overlap_partial :
  forall sz hmac M sm (F : members -> Prop) evs s k1 n1 A1 k2 n2 A2,
  net_reached sz hmac M sm evs s -> F M -> asked_within F evs -> overlapping sm F -> no_clash s -> psize (w_rolled s) <= sm ->
  was s k1 n1 A1 -> was s k2 n2 A2 -> is_leader n1 = true -> is_leader n2 = true -> n_term n1 = n_term n2 -> k1 = k2.
Proof.
  intros sz hmac M sm F evs s k1 n1 A1 k2 n2 A2 Hr HF Ha Ho Hn Hrb. intros.
  destruct (moved_inv _ _ _ _ _ _ _ Hr HF Ha Ho Hn) as [HM [Hw [Ho' [Hx [L0 HI]]]]].
  eapply (RaftMoveProofs.one_leader hmac sm L0 (wfF F) Ho' (within F) s k1 n1 A1 k2 n2 A2); eassumption.
Qed.

(* so: the voters change by one replica p, there and back as often as one likes,
   and the replicas that do not vote change in any way *)
Theorem C27_one_voter_comes_and_goes_partial :
  forall sz hmac M sm v p evs s k1 k2 i e1 e2,
  NoDup v -> sm < psize v -> psize v + 1 < 2 ^ 63 -> ~ In p v ->
  net_reached sz hmac M sm evs s -> voters_or_one_more v p M -> asked_within (voters_or_one_more v p) evs ->
  no_clash s -> psize (w_rolled s) <= sm ->
  In (k1, (i, e1)) (w_taken s) -> In (k2, (i, e2)) (w_taken s) -> e1 = e2.
Proof.
  intros sz hmac M sm v p evs s k1 k2 i e1 e2 Nv Hsm Hb Hp Hr HM Ha.
  eapply (C27_applied_while_quorums_overlap_partial sz hmac M sm (fun m => wf_members m /\ voters_or_one_more v p m) evs s); [exact Hr|..].
  - split; [|exact HM]. destruct Hr as [? [? [? [? [[H1 _] _]]]]]. exact H1.
  - intros k ok rnd g m Hin Em. split; [now apply from_proto_wf in Em|]. exact (Ha k ok rnd g m Hin Em).
  - now apply one_more_overlap.
Qed.

(* a leader always votes itself, under the membership it goes by *)
Theorem C27_leader_votes_partial :
  forall sz hmac M sm (F : members -> Prop) evs s k n A,
  net_reached sz hmac M sm evs s -> F M -> asked_within F evs -> overlapping sm F -> no_clash s ->
  was s k n A -> is_leader n = true -> In k (m_voting (mship n)).
Proof.
  intros sz hmac M sm F evs s k n A Hr HF Ha Ho Hn Hwas Hl.
  destruct (moved_inv _ _ _ _ _ _ _ Hr HF Ha Ho Hn) as [HM [Hw [Ho' [Hx [L0 HI]]]]].
  destruct (RaftMoveProofs.gi_past _ _ _ _ _ _ HI _ _ _ Hwas) as [HR _]. destruct (ri_id _ _ _ _ _ _ _ _ _ _ _ HR) as [<- _].
  pose proof (ri_ro _ _ _ _ _ _ _ _ _ _ _ HR) as Hro. unfold is_leader in Hl. destruct (n_role n); try discriminate.
  destruct Hro as [_ [[Hv _] _]]. now apply pmem_In.
Qed.

(* Not vacuous: 1..4 vote.  1 leads, has 5 vote as well, commits that with 2, 3 and
   5, and a request.  2 is elected by 2, 3, 5, commits a request, and has 5 vote no
   more. *)
Definition x_cmds_move : list cmd :=
  [Tick 1; Pass 1 2; Pass 2 1; Pass 1 3; Pass 3 1; Ask 1 (x_change [1; 2; 3; 4; 5]); Ask 1 (IData [42])] ++
  both 4 1 2 ++ both 4 1 3 ++ both 4 1 5 ++ both 3 1 2 ++ both 3 1 3 ++ both 3 1 5 ++ [Take 1; Take 1; Take 1;
   Tick 2; Tick 2; Pass 2 3; Pass 3 2; Pass 2 5; Pass 5 2; Ask 2 (IData [43]); Ask 2 (x_change [1; 2; 3; 4])] ++
  both 4 2 3 ++ both 4 2 5 ++ both 4 2 1 ++ both 3 2 3 ++ both 3 2 5 ++ both 3 2 1 ++ [Take 2; Take 2; Take 2; Take 2; Take 2; Take 2].
Definition x_net_move : list event * net := run_cmds (x_start x_group5 0 1000 [1; 2; 3; 4; 5]) x_cmds_move.
Definition voters_in (vs : list pset) (m : members) : bool :=
  existsb (fun v => if list_eq_dec (list_eq_dec N.eq_dec) (m_voting m) v then true else false) vs.
Definition asked_b (vs : list pset) (evs : list event) : bool :=
  forallb (fun ev => match ev with
    | ECall _ (ORequest _ _ (IMember g)) => let (m, e) := from_proto g in match e with M_OK => voters_in vs m | _ => true end
    | _ => true
    end) evs.
Lemma asked_b_sound vs evs : asked_b vs evs = true -> asked_within (fun m => In (m_voting m) vs) evs.
Proof.
  intros H k ok rnd g m Hin Em. unfold asked_b in H. rewrite forallb_forall in H. specialize (H _ Hin). cbv beta iota in H. rewrite Em in H. cbv beta iota in H.
  unfold voters_in in H. apply existsb_exists in H as [v [Hv H]]. destruct (list_eq_dec _ _ v) as [->|]; [assumption|discriminate].
Qed.
Lemma x_one_more m : In (m_voting m) [map pid [1; 2; 3; 4]; map pid [1; 2; 3; 4; 5]] -> voters_or_one_more (map pid [1; 2; 3; 4]) (pid 5) m.
Proof.
  intros [H|[H|[]]]; unfold voters_or_one_more; rewrite <- H; [left; tauto|right]. intros k. cbn [map In]. intuition auto.
Qed.
Example C27_one_voter_meets :
  let v := map pid [1; 2; 3; 4] in
  NoDup v /\ 0 < psize v /\ psize v + 1 < 2 ^ 63 /\ ~ In (pid 5) v /\
  net_reached toy_sizes toy_hmac x_group5 0 (fst x_net_move) (snd x_net_move) /\ voters_or_one_more v (pid 5) x_group5 /\
  asked_within (voters_or_one_more v (pid 5)) (fst x_net_move) /\ ~ fixed_membership (fst x_net_move) /\
  no_clash (snd x_net_move) /\ psize (w_rolled (snd x_net_move)) <= 0 /\
  map (fun x => (hd 0 (fst x), (fst (snd x), match e_inner (snd (snd x)) with IMember _ => x_change [] | x => x end))) (w_taken (snd x_net_move)) =
    [(1, (1, INone)); (1, (2, x_change [])); (1, (3, IData [42]));
     (2, (1, INone)); (2, (2, x_change [])); (2, (3, IData [42])); (2, (4, INone)); (2, (5, IData [43])); (2, (6, x_change []))].
Proof.
  cbv zeta. assert (Nv : NoDup (map pid [1; 2; 3; 4])).
  { cbn [map]. repeat (constructor; [intros X; cbn in X; repeat (destruct X as [X|X]; [discriminate|]); destruct X|]). constructor. }
  split; [exact Nv|]. split; [vm_compute; reflexivity|]. split; [vm_compute; reflexivity|].
  split; [intros X; cbn in X; repeat (destruct X as [X|X]; [discriminate|]); destruct X|].
  split; [apply run_cmds_reached; [apply x_may5|eexists; vm_compute; reflexivity]|].
  split; [left; cbn; tauto|].
  split.
  { intros k ok rnd g m Hin Em. apply x_one_more. revert k ok rnd g m Hin Em. apply asked_b_sound. vm_compute. reflexivity. }
  split.
  { intros X. assert (Hin : exists k ok rnd, In (ECall k (ORequest ok rnd (x_change [1; 2; 3; 4; 5]))) (fst x_net_move)).
    { exists (pid 1). do 2 eexists. vm_compute. do 5 right. left. reflexivity. }
    destruct Hin as [k [ok [rnd Hin]]]. exact (X _ _ _ _ Hin). }
  split; [apply no_clash_b_sound; vm_compute; reflexivity|]. split; [vm_compute; discriminate|]. vm_compute. reflexivity.
Qed.
(* and the two leaders of it, of terms 1 and 3 *)
Definition led_b (k : bytes) (t c : N) (x : bytes * (node * list entry)) : bool :=
  (if list_eq_dec N.eq_dec (fst x) k then true else false) && is_leader (fst (snd x)) && (n_term (fst (snd x)) =? t) && (c <=? n_commit (fst (snd x))).
Lemma led_b_sound k t c P : existsb (led_b k t c) P = true -> exists n A, In (k, (n, A)) P /\ is_leader n = true /\ n_term n = t /\ c <= n_commit n.
Proof.
  intros E. apply existsb_exists in E as [[k1 [n A]] [H E]]. unfold led_b in E. cbn [fst snd] in E.
  apply andb_true_iff in E as [E Ec]. apply andb_true_iff in E as [E Et]. apply andb_true_iff in E as [E El].
  destruct (list_eq_dec N.eq_dec k1 k) as [->|]; [|discriminate]. exists n, A. apply N.eqb_eq in Et. apply N.leb_le in Ec. auto.
Qed.
Example C27_leaders_meet :
  (exists n1 A1, was (snd x_net_move) (pid 1) n1 A1 /\ is_leader n1 = true /\ n_term n1 = 1 /\ 3 <= n_commit n1) /\
  (exists n2 A2, was (snd x_net_move) (pid 2) n2 A2 /\ is_leader n2 = true /\ n_term n2 = 3 /\ 6 <= n_commit n2).
Proof. split; (apply led_b_sound; vm_compute; reflexivity). Qed.

(* C73 and what holds of C28 (P_RaftFresh.v, P_RaftComplete.v) speak of this group too *)
Example C27_changes_meet :
  changes_overlap x_group5 0 (fst x_net_move) /\ ~ fixed_membership (fst x_net_move) /\
  new_group_reached toy_sizes toy_hmac x_group5 0 (fst x_net_move) (snd x_net_move) /\ leaders_not_put_back (snd x_net_move).
Proof.
  destruct C27_one_voter_meets as (H1 & H2 & H3 & H4 & _ & H6 & H7 & H8 & _).
  split.
  - exists (fun m => wf_members m /\ voters_or_one_more (map pid [1; 2; 3; 4]) (pid 5) m). split; [split; [exact (proj1 (x_may5 1000))|exact H6]|]. split.
    + intros k ok rnd g m Hin Em. split; [now apply from_proto_wf in Em|exact (H7 _ _ _ _ _ Hin Em)].
    + now apply one_more_overlap.
  - split; [exact H8|]. split; [apply run_cmds_new; [apply x_may5|eexists; vm_compute; reflexivity]|].
    apply leaders_not_put_back_b_sound. vm_compute. reflexivity.
Qed.

Print Assumptions C27_agreement_while_quorums_overlap_partial.
Print Assumptions C27_logs_while_quorums_overlap_partial.
Print Assumptions C27_applied_while_quorums_overlap_partial.
Print Assumptions C27_one_leader_while_quorums_overlap_partial.
Print Assumptions C27_one_voter_comes_and_goes_partial.
Print Assumptions C27_leader_votes_partial.
