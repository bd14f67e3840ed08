(* C25, C26: quorums and membership changes.  Vocabulary: MembershipSpec.v. *)
From Verif Require Import Membership MembershipSpec MembershipProofs Raft.

(* C25 *)
Theorem C25_quorums_overlap :
  forall v sm q1 q2, sm < psize v -> psize v < 2 ^ 63 ->
  is_quorum v sm q1 -> is_quorum v sm q2 -> sm < psize (common q1 q2).
Proof. exact quorum_overlap. Qed.
(* p is the voter one membership has and the other has not *)
Theorem C25_quorums_overlap_one_more :
  forall v p sm q1 q2, sm < psize v -> psize v + 1 < 2 ^ 63 -> ~ In p v ->
  is_quorum v sm q1 -> is_quorum (p :: v) sm q2 -> sm < psize (common q1 q2).
Proof. exact quorum_overlap_step. Qed.
(* a quorum never asks for more voters than there are, and is never empty *)
Theorem C25_quorum_attainable :
  forall v sm, sm < psize v -> psize v < 2 ^ 63 ->
  0 < quorum_size (psize v) sm /\ quorum_size (psize v) sm <= psize v.
Proof.
  intros v sm H1 H2. destruct (quorum_size_val (psize v) sm H1 H2) as [E _].
  split; [|unfold quorum_size; apply N.le_min_l]. rewrite E. zify; lia.
Qed.

(* C26: what the check accepts *)
Theorem C26_accepted_is_safe_step :
  forall leader from to sm, wf_members from -> wf_members to -> psize (m_all to) < 2 ^ 63 ->
  valid_progression leader from to sm = M_OK -> safe_step leader sm from to.
Proof. exact valid_progression_safe. Qed.

(* C26: a membership request a replica accepts, whatever it is asked: it is the
   leader, no other change is pending, and the change is a safe step from its
   membership. *)
Theorem C26_only_safe_steps_requested :
  forall sz hmac ok rnd g n n' l to,
  wf_members (n_mem n) -> from_proto g = (to, M_OK) -> psize (m_all to) < 2 ^ 63 ->
  log_request sz hmac ok rnd (IMember g) n = Ret (n', (l, RE_OK)) ->
  is_leader n = true /\ n_unc n = [] /\ safe_step (n_me n) (n_sm n) (n_mem n) to.
Proof.
  intros sz hmac ok rnd g n n' l to Hw Hp Hs E. unfold log_request in E. unfold is_leader.
  destruct (n_role n) as [| |fs hb [|]] eqn:Er; try discriminate.
  destruct (n_unc n); [|discriminate]. rewrite Hp in E.
  destruct (valid_progression _ _ _ _) eqn:Ev; try discriminate.
  do 2 (split; [reflexivity|]). apply valid_progression_safe; auto. exact (from_proto_wf _ _ _ Hp).
Qed.
(* and one that is not a valid group is never accepted *)
Theorem C26_malformed_group_refused :
  forall sz hmac ok rnd g n n' l e to, from_proto g = (to, e) -> e <> M_OK ->
  log_request sz hmac ok rnd (IMember g) n <> Ret (n', (l, RE_OK)).
Proof.
  intros sz hmac ok rnd g n n' l e to Hp He E. unfold log_request in E.
  destruct (n_role n) as [| |fs hb [|]] eqn:Er; try discriminate.
  destruct (n_unc n); [|discriminate]. rewrite Hp in E. destruct e; try discriminate; congruence.
Qed.

(* --- concrete cases ------------------------------------------------------- *)
Definition pid (k : N) : bytes := repeat k 32.
Definition x_from : members := Members [pid 1; pid 2; pid 3; pid 4] [pid 1; pid 2; pid 3].
Definition x_group : rgroup :=
  [Replica (pid 4) true; Replica (pid 2) true; Replica (pid 1) true; Replica (pid 3) true].
Example x_quorums : is_quorum [pid 1; pid 2; pid 3; pid 4; pid 5] 1 [pid 1; pid 2; pid 3; pid 4] /\
  ~ is_quorum [pid 1; pid 2; pid 3; pid 4; pid 5] 1 [pid 1; pid 2; pid 3].
Proof.
  split.
  - split; [|split; [intros x Hx; cbn in *; tauto|vm_compute; discriminate]].
    repeat (apply NoDup_cons; [cbn; intuition discriminate|]). apply NoDup_nil.
  - intros [_ [_ H]]. vm_compute in H. apply H; reflexivity.
Qed.
Example x_accepted : exists to, from_proto x_group = (to, M_OK) /\
  valid_progression (pid 1) x_from to 1 = M_OK /\ wf_members x_from /\ role_in to (pid 4) = Voter /\ role_in x_from (pid 4) = Silent.
Proof.
  eexists. split; [vm_compute; reflexivity|]. split; [vm_compute; reflexivity|].
  split; [|split; vm_compute; reflexivity].
  split; [|split]; cbn -[pid blt].
  - repeat split; intros q Hq; cbn -[pid blt] in Hq; intuition (subst; vm_compute; reflexivity).
  - repeat split; intros q Hq; cbn -[pid blt] in Hq; intuition (subst; vm_compute; reflexivity).
  - intros q Hq; cbn -[pid blt] in *; tauto.
Qed.
(* removing a voter outright is accepted, removing a voter and adding another is
   not, nor is going down to super_majority voters *)
Example x_progressions :
  valid_progression (pid 1) x_from (Members [pid 1; pid 3; pid 4] [pid 1; pid 3]) 1 = M_OK /\
  valid_progression (pid 1) x_from (Members [pid 1; pid 3; pid 4] [pid 1; pid 3; pid 4]) 1 = M_TooMany /\
  valid_progression (pid 1) x_from (Members [pid 1; pid 3; pid 4] [pid 1; pid 3]) 2 = M_SuperMajorityLost /\
  valid_progression (pid 2) x_from (Members [pid 1; pid 3; pid 4] [pid 1; pid 3]) 1 = M_LeaderNotVoting.
Proof. repeat split; vm_compute; reflexivity. Qed.

Print Assumptions C25_quorums_overlap.
Print Assumptions C25_quorums_overlap_one_more.
Print Assumptions C25_quorum_attainable.
Print Assumptions C26_accepted_is_safe_step.
Print Assumptions C26_only_safe_steps_requested.
Print Assumptions C26_malformed_group_refused.
