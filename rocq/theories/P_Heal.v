(* C32: the changes of membership a leader proposes by itself.  Vocabulary: HealSpec.v
   and MembershipSpec.v; [reached] is every replica after any calls (RaftSpec.v). *)
From Verif Require Import HealSpec HealProofs MembershipProofs Hist P_Membership P_Raft.

(* a proposal is a well-formed group in which exactly one peer other than the leader
   has another role, for the reason given, and with which the limits on the number of
   voters are kept *)
Theorem C32_proposals_change_one_other_peer :
  forall sz hmac c n g, reached sz hmac n -> ids_ok (mship n) -> next_group c n = Some g ->
  exists to, from_proto g = (to, M_OK) /\ wf_members to /\ heals c n (mship n) to.
Proof.
  intros sz hmac c n g R I E. destruct (reached_sound _ _ _ R) as [W NS].
  destruct (next_group_heals c n g W I NS E) as (to & H1 & H2 & H3 & _). eauto.
Qed.
Theorem C32_leader_keeps_its_role :
  forall sz hmac c n g, reached sz hmac n -> ids_ok (mship n) -> next_group c n = Some g ->
  is_leader n = true /\ exists to, from_proto g = (to, M_OK) /\ role_in to (n_me n) = role_in (mship n) (n_me n).
Proof.
  intros sz hmac c n g R I E. destruct (reached_sound _ _ _ R) as [W NS].
  destruct (next_group_heals c n g W I NS E) as (to & H1 & _ & H3 & L). split; [exact L|]. exists to. split; [exact H1|].
  destruct H3 as [p Hp (_ & _ & C) _ _ _|p Hp (_ & _ & C) _ _ _|p Hp (_ & _ & C) _ _]; auto.
Qed.
Theorem C32_voters_stay_within_limits :
  forall sz hmac c n g, reached sz hmac n -> ids_ok (mship n) -> next_group c n = Some g ->
  h_min c <= voters (mship n) <= h_max c ->
  exists to, from_proto g = (to, M_OK) /\ h_min c <= voters to <= h_max c.
Proof.
  intros sz hmac c n g R I E L. destruct (C32_proposals_change_one_other_peer _ _ _ _ _ R I E) as (to & H1 & _ & H3).
  exists to. split; [exact H1|]. destruct H3; lia.
Qed.
(* the group takes the proposal, unless it would give up the super-majority *)
Theorem C32_proposals_are_acceptable :
  forall sz hmac c n g, reached sz hmac n -> ids_ok (mship n) -> next_group c n = Some g ->
  role_in (mship n) (n_me n) = Voter ->
  exists to, from_proto g = (to, M_OK) /\
    (psize (m_all to) < 2 ^ 63 ->
     valid_progression (n_me n) (mship n) to (n_sm n) = M_OK \/
     (valid_progression (n_me n) (mship n) to (n_sm n) = M_SuperMajorityLost /\ n_sm n < voters (mship n) /\ voters to <= n_sm n)).
Proof.
  intros sz hmac c n g R I E V. destruct (C32_proposals_change_one_other_peer _ _ _ _ _ R I E) as (to & H1 & H2 & H3).
  exists to. split; [exact H1|]. intros Sz. destruct (reached_sound _ _ _ R) as [W _]. exact (heals_accepted c n _ _ W H2 Sz H3 V).
Qed.
(* what calls for a change leads to one *)
Theorem C32_needed_changes_are_proposed :
  forall sz hmac c n p, reached sz hmac n ->
  (role_in (mship n) p = Silent /\ heard_within n (c_eticks (n_cfg n)) p /\ voters (mship n) < h_max c) \/
  (role_in (mship n) p = Voter /\ silent_for n (h_voting_timeout c) p /\ h_min c < voters (mship n)) \/
  (role_in (mship n) p = Silent /\ silent_for n (h_membership_timeout c) p) ->
  next_group c n <> None.
Proof.
  intros sz hmac c n p R H. destruct (reached_sound _ _ _ R) as [W _]. unfold next_group.
  destruct H as [(H1 & H2 & H3)|[(H1 & H2 & H3)|(H1 & H2)]].
  - rewrite (leads n p) by (destruct H2; lia). cbn [negb]. pose proof (promote_some c n p W H1 H2 H3).
    destruct (promote_one c n); congruence.
  - rewrite (leads n p) by (destruct H2; auto). cbn [negb]. pose proof (demote_some c n p W H1 H2 H3).
    destruct (promote_one c n); [congruence|]. destruct (demote_one c n); congruence.
  - rewrite (leads n p) by (destruct H2; auto). cbn [negb]. pose proof (remove_some c n p W H1 H2).
    destruct (promote_one c n); [congruence|]. destruct (demote_one c n); congruence.
Qed.

(* ---- a leader of three voters and an observer ---- *)
Definition x_four : members := Members [pid 1; pid 2; pid 3; pid 4] [pid 1; pid 2; pid 3].
Definition x_new4 : outcome node := new_node toy_sizes toy_hmac 77 (pid 1) x_four (empty_log 10000) x_cfg false 0 true 1.
Definition x_lead : list rop := [OTick true 3; OReceive true true 3 (pid 2) (RMsg 77 1 (VoteResp true))].
Definition x_hear : list rop := x_lead ++ [OReceive true true 3 (pid 4) (RMsg 77 1 (AppResp false 0 0 0 []))].
Definition x_wait : list rop := x_lead ++ repeat (OTick true 3) 7.
Definition x_hc : heal_conf := HealConf 2 5 6 8.
Definition x_at (ops : list rop) : outcome node :=
  match x_new4 with Ret n0 => match exec (rstep toy_sizes toy_hmac) n0 ops with Ret (n, _) => Ret n | Crash => Crash end | Crash => Crash end.
Lemma x_at_reached ops n : x_at ops = Ret n -> reached toy_sizes toy_hmac n.
Proof.
  unfold x_at. destruct x_new4 as [n0|] eqn:E0; [|discriminate]. destruct (exec _ n0 ops) as [[n1 rs]|] eqn:E; [|discriminate].
  intros [= <-]. exists n0, [], ops, rs. split; [|exact E].
  exists 77, (pid 1), x_four, (empty_log 10000), x_cfg, false, 0, true, 1%Z, [].
  split; [|split; [exact I|split; [|split; [right; reflexivity|split; [exact E0|]]]]].
  - split; [|split]; cbn -[pid blt].
    + repeat split; intros q Hq; cbn -[pid blt] in Hq; intuition (subst; vm_compute; reflexivity).
    + repeat split; intros q Hq; cbn -[pid blt] in Hq; intuition (subst; vm_compute; reflexivity).
    + intros q Hq; cbn -[pid] in *; intuition.
  - exists 0%nat; repeat split; auto.
  - vm_compute in E0. injection E0 as <-. reflexivity.
Qed.
Definition x_proposal (c : heal_conf) (ops : list rop) : option (list (N * bool)) :=
  match x_at ops with
  | Ret n => option_map (map (fun r => (last (rp_id r) 0, rp_voting r))) (next_group c n)
  | Crash => None
  end.
Example C32_ex_promotes : x_proposal x_hc x_hear = Some [(1, true); (2, true); (3, true); (4, true)].
Proof. vm_compute; reflexivity. Qed.
Example C32_ex_demotes : x_proposal x_hc x_wait = Some [(1, true); (2, false); (3, true); (4, false)].
Proof. vm_compute; reflexivity. Qed.
Example C32_ex_removes : x_proposal (HealConf 3 5 5 6) x_wait = Some [(1, true); (2, true); (3, true)].
Proof. vm_compute; reflexivity. Qed.
Example C32_ex_nothing : x_proposal x_hc (firstn 1 x_lead) = None /\ x_proposal (HealConf 3 3 6 8) x_hear = None.
Proof. split; vm_compute; reflexivity. Qed.
Example C32_ex_hypotheses : exists n, x_at x_hear = Ret n /\ reached toy_sizes toy_hmac n /\ ids_ok (mship n)
  /\ role_in (mship n) (n_me n) = Voter /\ h_min x_hc <= voters (mship n) <= h_max x_hc
  /\ role_in (mship n) (pid 4) = Silent /\ heard_within n (c_eticks (n_cfg n)) (pid 4).
Proof.
  assert (E : exists n, x_at x_hear = Ret n) by (eexists; vm_compute; reflexivity). destruct E as [n E].
  exists n. split; [exact E|]. split; [exact (x_at_reached _ _ E)|].
  vm_compute in E. injection E as <-. split; [|split; [|split; [|split]]]; try (vm_compute; reflexivity).
  - intros p Hp. vm_compute in Hp. repeat (destruct Hp as [<-|Hp]; [reflexivity|]). destruct Hp.
  - vm_compute. split; congruence.
  - split; vm_compute; reflexivity.
Qed.

Print Assumptions C32_proposals_change_one_other_peer.
Print Assumptions C32_leader_keeps_its_role.
Print Assumptions C32_voters_stay_within_limits.
Print Assumptions C32_proposals_are_acceptable.
Print Assumptions C32_needed_changes_are_proposed.
