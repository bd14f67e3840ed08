(* C73: logs that agree on the term of an entry.  Vocabulary: RaftSpec.v, RaftNetSpec.v. *)
From Verif Require Import RaftLog Raft RaftSpec RaftChain RaftLogProofs RaftNode RaftRun RaftNet RaftNetSpec RaftNetProofs RaftMoveSpec RaftMoveProofs RaftFreshProofs
  Membership MembershipSpec MembershipProofs P_Membership P_Raft P_RaftNet UtilProofs.

(* no replica that was put back ever led *)
Definition leaders_not_put_back (s : net) : Prop := forall k n A, In k (w_rolled s) -> was s k n A -> is_leader n = false.

(* C73: two logs, at any two moments and of any two replicas, that have an entry of
   the same term at the same index are the same up to that index, committed or not *)
Theorem C73_logs_match :
  forall sz hmac M sm evs s k1 n1 A1 k2 n2 A2 i e1 e2,
  net_reached sz hmac M sm evs s -> changes_overlap M sm evs -> no_clash s -> psize (w_rolled s) <= sm -> leaders_not_put_back s ->
  was s k1 n1 A1 -> was s k2 n2 A2 -> nth_entry A1 i = Some e1 -> nth_entry A2 i = Some e2 -> e_term e1 = e_term e2 ->
  e1 = e2 /\ firstn (N.to_nat i) A1 = firstn (N.to_nat i) A2.
Proof.
  intros sz hmac M sm evs s k1 n1 A1 k2 n2 A2 i e1 e2 Hr (F & HF0 & Hf & Hov) Hn Hp Hc I1 I2 E1 E2 Ht.
  destruct (reached_fresh _ _ _ _ F _ _ Hr HF0 Hf Hov Hn Hp Hc) as [Ho [HM [Hw [L0 [HI HF]]]]].
  pose proof (logs_match hmac M sm L0 (wfF F) HM Hw (within F) s _ _ _ _ _ _ _ _ _ HI Hn HF I1 I2 E1 E2 Ht) as H. unfold upto in H. split; [|exact H].
  assert (Hx : forall (A : list entry) e, nth_entry A i = Some e -> nth_error (firstn (N.to_nat i) A) (N.to_nat i - 1) = Some e).
  { intros A e X. unfold nth_entry in X. destruct (i =? 0) eqn:Z; [discriminate|]. rewrite <- X, N2Nat.inj_sub. change (N.to_nat 1) with 1%nat.
    rewrite <- (firstn_skipn (N.to_nat i) A) at 2. rewrite nth_error_app1; [f_equal; lia|]. rewrite firstn_length.
    assert (N.to_nat (i - 1) < length A)%nat by (apply nth_error_Some; congruence). lia. }
  apply Hx in E1. apply Hx in E2. congruence.
Qed.
(* ... and a leader has every entry of its own term that any replica ever had *)
Theorem C73_leader_has_its_terms_entries :
  forall sz hmac M sm evs s k n A k1 n1 A1 i e,
  net_reached sz hmac M sm evs s -> changes_overlap M sm evs -> no_clash s -> psize (w_rolled s) <= sm -> leaders_not_put_back s ->
  lookup k (w_now s) = Some (n, A) -> is_leader n = true ->
  was s k1 n1 A1 -> nth_entry A1 i = Some e -> e_term e = n_term n -> nth_entry A i = Some e.
Proof.
  intros sz hmac M sm evs s k n A k1 n1 A1 i e Hr (F & HF0 & Hf & Hov) Hn Hp Hc Hl L I1 E1 Ht.
  destruct (reached_fresh _ _ _ _ F _ _ Hr HF0 Hf Hov Hn Hp Hc) as [Ho [HM [Hw [L0 [HI HF]]]]].
  destruct (N.le_gt_cases i (llen L0)) as [X|X]; [|exact (fr_has L0 s HF k n A Hl L _ _ _ _ _ I1 X E1 Ht)].
  destruct (gi_past _ _ _ _ _ s HI _ _ _ I1) as [R1 _], (gi_past _ _ _ _ _ s HI _ _ _ (gi_now _ _ _ _ _ s HI k n A Hl)) as [R2 _].
  destruct (ri_k _ _ _ _ _ _ _ _ _ _ _ R1) as [[c1 ->] _], (ri_k _ _ _ _ _ _ _ _ _ _ _ R2) as [[c2 ->] _].
  unfold nth_entry, llen in *. destruct (i =? 0) eqn:Z; [discriminate|]. rewrite nth_error_app1 in * by lia. assumption.
Qed.

Definition leaders_not_put_back_b (s : net) : bool :=
  forallb (fun x => negb (existsb (beq (fst x)) (w_rolled s) && is_leader (fst (snd x)))) (w_past s).
Lemma leaders_not_put_back_b_sound s : leaders_not_put_back_b s = true -> leaders_not_put_back s.
Proof.
  intros H k n A Hk Hw. unfold leaders_not_put_back_b in H. rewrite forallb_forall in H. specialize (H _ Hw). cbn [fst snd] in H.
  assert (X : existsb (beq k) (w_rolled s) = true) by (apply existsb_exists; exists k; split; [assumption|now apply beq_eq]). rewrite X in H.
  destruct (is_leader n); [discriminate|reflexivity].
Qed.
(* not vacuous: the group of C19 (P_RaftNet.v): 2, which never led, was put back; 1 led term 1 and 3 leads term 2; all
   of them have an entry of term 1 at index 2 *)
Example x_logs_match :
  net_reached toy_sizes toy_hmac x_group3 1 (fst x_net19) (snd x_net19) /\ changes_overlap x_group3 1 (fst x_net19) /\ no_clash (snd x_net19) /\
  psize (w_rolled (snd x_net19)) = 1 /\ leaders_not_put_back (snd x_net19) /\
  map (fun x => (hd 0 (fst x), (is_leader (fst (snd x)), n_term (fst (snd x))), map e_term (snd (snd x)))) (w_now (snd x_net19)) =
    [(1, (false, 2), [1; 1; 2; 2]); (2, (false, 2), [1; 1; 2; 2]); (3, (true, 2), [1; 1; 2; 2])].
Proof.
  destruct x_rolled_back_group as (H1 & H2 & H3 & H4 & _). split; [exact H1|]. split; [exact (fixed_changes _ _ _ _ _ _ H1 H2)|]. split; [exact H3|]. split; [exact H4|].
  split; [apply leaders_not_put_back_b_sound; vm_compute; reflexivity|vm_compute; reflexivity].
Qed.
(* the condition on leaders is needed: 1, elected in term 1, makes an entry, is put
   back to where it was elected, and makes another at the same index *)
Definition x_cmds73 : list cmd :=
  [Tick 1; Pass 1 2; Pass 2 1; Pass 1 3; Pass 3 1; Ask 1 (IData [42]); Back 1 7; Ask 1 (IData [43])].
Definition x_net73 : list event * net := run_cmds (x_start x_group3 1 1000 [1; 2; 3]) x_cmds73.
Example C73_leader_put_back :
  net_reached toy_sizes toy_hmac x_group3 1 (fst x_net73) (snd x_net73) /\ changes_overlap x_group3 1 (fst x_net73) /\ no_clash (snd x_net73) /\
  psize (w_rolled (snd x_net73)) = 1 /\
  exists k1 n1 A1 k2 n2 A2 e1 e2, was (snd x_net73) k1 n1 A1 /\ was (snd x_net73) k2 n2 A2 /\ nth_entry A1 2 = Some e1 /\ nth_entry A2 2 = Some e2 /\
    e_term e1 = e_term e2 /\ e1 <> e2.
Proof.
  assert (H1 : net_reached toy_sizes toy_hmac x_group3 1 (fst x_net73) (snd x_net73)) by (apply run_cmds_reached; [apply x_may3; reflexivity|eexists; vm_compute; reflexivity]).
  split; [exact H1|]. split; [apply (fixed_changes _ _ _ _ _ _ H1), fixed_b_sound; vm_compute; reflexivity|]. clear H1. split; [apply no_clash_b_sound; vm_compute; reflexivity|]. split; [vm_compute; reflexivity|].
  assert (X : exists j1 j2 n1 A1 n2 A2 e1 e2, nth_error (w_past (snd x_net73)) j1 = Some (pid 1, (n1, A1)) /\
     nth_error (w_past (snd x_net73)) j2 = Some (pid 1, (n2, A2)) /\ nth_entry A1 2 = Some e1 /\ nth_entry A2 2 = Some e2 /\ e_term e1 = e_term e2 /\
     e_inner e1 = IData [42] /\ e_inner e2 = IData [43]).
  { exists (length (w_past (snd x_net73)) - 2)%nat, (length (w_past (snd x_net73)) - 1)%nat. do 6 eexists.
    split; [vm_compute; reflexivity|]. split; [vm_compute; reflexivity|]. repeat (split; [vm_compute; reflexivity|]). vm_compute; reflexivity. }
  destruct X as (j1 & j2 & n1 & A1 & n2 & A2 & e1 & e2 & X1 & X2 & X3 & X4 & X5 & X6 & X7).
  exists (pid 1), n1, A1, (pid 1), n2, A2, e1, e2. split; [exact (nth_error_In _ _ X1)|]. split; [exact (nth_error_In _ _ X2)|].
  repeat (split; [assumption|]). intros ->. congruence.
Qed.

Print Assumptions C73_logs_match.
Print Assumptions C73_leader_has_its_terms_entries.
