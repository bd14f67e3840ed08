(* C28, what holds of it: a leader has the entries committed in terms before its own.
   Vocabulary: RaftSpec.v, RaftNetSpec.v, and leaders_not_put_back of P_RaftFresh.v. *)
From Verif Require Import RaftLog Raft RaftSpec RaftChain RaftLogProofs RaftNode RaftRun RaftNet RaftNetSpec RaftNetProofs RaftMoveSpec RaftMoveProofs RaftFreshProofs RaftCompleteProofs
  Membership MembershipSpec MembershipProofs P_Membership P_Raft P_RaftNet P_RaftFresh UtilProofs.

(* s is a state, after some events, of a group that started with an empty log *)
Definition new_group_reached sz hmac (M : members) (sm : N) (evs : list event) (s : net) : Prop :=
  exists group xs s0, may_start hmac M sm [] xs /\ start sz hmac group M sm [] xs = Ret s0 /\ s = net_run sz hmac s0 evs.

(* C28, partial: once any replica k1 has index i committed, and the entry there is of
   the term k1 is in, every replica k2 that leads in a later term has the same entries
   up to i.  Missing: (1) entries that are committed only in a later term than their
   own -- C28_leader_has_committed_entries_refuted shows that the claim is false for
   these; (2) groups that start with a log (a new replica starts in term 0 whatever is
   in its log); (3) changes of the membership between memberships whose quorums do not
   overlap (C27_agreement_across_membership_changes_refuted shows what those can do). *)
Theorem C28_leader_has_committed_entries_partial :
  forall sz hmac M sm evs s k1 n1 A1 k2 n2 A2 i e,
  new_group_reached sz hmac M sm evs s -> changes_overlap M sm evs -> no_clash s -> psize (w_rolled s) <= sm -> leaders_not_put_back s ->
  was s k1 n1 A1 -> i <= n_commit n1 -> nth_entry A1 i = Some e -> e_term e = n_term n1 ->
  was s k2 n2 A2 -> is_leader n2 = true -> n_term n1 < n_term n2 ->
  nth_entry A2 i = Some e /\ firstn (N.to_nat i) A2 = firstn (N.to_nat i) A1.
Proof.
  intros sz hmac M sm evs s k1 n1 A1 k2 n2 A2 i e (group & xs & s0 & (H1 & H2 & H3 & H4 & H5 & H6 & H7) & E & ->) (F & HF1 & Hf & Hov) Hun Hr Hc I1 Hi He Ht I2 L2 Hlt.
  destruct (moved_parts M sm F evs H1 HF1 Hf Hov) as (HM & Hw & Ho & Hx & Hn & Hff).
  assert (HI0 : ginv hmac sm [] (wfF F) (within F) s0) by (eapply (start_inv sz hmac M); eassumption).
  assert (HF0 : fresh [] s0) by (eapply (start_fresh sz hmac M sm [] (wfF F)); eassumption).
  assert (HU0 : full s0) by (eapply (start_full sz hmac M sm (wfF F)); eassumption).
  assert (HI : ginv hmac sm [] (wfF F) (within F) (net_run sz hmac s0 evs)) by (eapply (run_inv sz hmac M); eauto).
  assert (HF : fresh [] (net_run sz hmac s0 evs)) by (eapply (run_fresh sz hmac M sm [] (wfF F) HM Hw Ho (within F) evs Hn Hx); eauto).
  assert (HU : full (net_run sz hmac s0 evs)) by (eapply (run_full sz hmac M sm (wfF F) HM Hw Ho (within F) evs Hn Hx); eauto).
  pose proof (complete hmac M sm (wfF F) HM Hw Ho (within F) _ k1 n1 A1 i e HI Hun HF HU Hr Hc I1 Hi He Ht _ k2 n2 A2 eq_refl I2 L2 Hlt) as X.
  split; [|exact X]. rewrite <- He. apply (upto_nth i i); [exact X|lia].
Qed.
Lemma run_cmds_new M sm chunk ks cs : may_start toy_hmac M sm [] (map (x_seat chunk) ks) ->
  (exists s0, x_start M sm chunk ks = Ret s0) ->
  new_group_reached toy_sizes toy_hmac M sm (fst (run_cmds (x_start M sm chunk ks) cs)) (snd (run_cmds (x_start M sm chunk ks) cs)).
Proof.
  intros Hm [s0 E]. exists 77, (map (x_seat chunk) ks), s0. split; [exact Hm|]. split; [exact E|].
  rewrite E. reflexivity.
Qed.
(* not vacuous: the group of C19 (P_RaftNet.v): 1 has its request of term 1 committed in
   term 1; 3 leads term 2; 2, which never led, was put back *)
Example x_later_leader_has_it :
  new_group_reached toy_sizes toy_hmac x_group3 1 (fst x_net19) (snd x_net19) /\ changes_overlap x_group3 1 (fst x_net19) /\ no_clash (snd x_net19) /\
  psize (w_rolled (snd x_net19)) = 1 /\ leaders_not_put_back (snd x_net19) /\
  exists n1 A1 n2 A2 e, was (snd x_net19) (pid 1) n1 A1 /\ 2 <= n_commit n1 /\ nth_entry A1 2 = Some e /\ e_inner e = IData [42] /\ e_term e = n_term n1 /\
    was (snd x_net19) (pid 3) n2 A2 /\ is_leader n2 = true /\ n_term n1 < n_term n2.
Proof.
  destruct x_logs_match as (_ & H2 & H3 & H4 & H5 & _).
  split; [apply run_cmds_new; [apply x_may3; reflexivity|eexists; vm_compute; reflexivity]|].
  split; [exact H2|]. split; [exact H3|]. split; [exact H4|]. split; [exact H5|]. clear.
  assert (X : existsb (fun x => (beq (fst x) (pid 1) && (2 <=? n_commit (fst (snd x))) && (n_term (fst (snd x)) =? 1) &&
     match nth_entry (snd (snd x)) 2 with Some e => match e_inner e with IData d => beq d [42] | _ => false end && (e_term e =? 1) | None => false end)%bool) (w_past (snd x_net19)) = true)
    by (vm_compute; reflexivity).
  assert (Y : existsb (fun x => (beq (fst x) (pid 3) && is_leader (fst (snd x)) && (n_term (fst (snd x)) =? 2))%bool) (w_past (snd x_net19)) = true)
    by (vm_compute; reflexivity).
  revert X Y. unfold was. generalize (w_past (snd x_net19)) as P. intros P X Y.
  apply existsb_exists in X as [[k1 [n1 A1]] [X1 X]], Y as [[k2 [n2 A2]] [Y1 Y]]. cbn [fst snd] in *.
  apply andb_prop in X as [X Xe]. apply andb_prop in X as [X Xt]. apply andb_prop in X as [X Xc]. apply andb_prop in Y as [Y Yt]. apply andb_prop in Y as [Y Yl].
  destruct (nth_entry A1 2) as [e|] eqn:Ee; [|discriminate]. apply andb_prop in Xe as [Q1 Q2]. destruct (e_inner e) as [|d| |] eqn:Ei; try discriminate.
  repeat match goal with H : beq _ _ = true |- _ => apply beq_eq in H; subst end.
  exists n1, A1, n2, A2, e. split; [exact X1|]. split; [lia|]. split; [exact Ee|]. split; [exact Ei|]. split; [lia|]. split; [exact Y1|]. split; [assumption|lia].
Qed.

Print Assumptions C28_leader_has_committed_entries_partial.
