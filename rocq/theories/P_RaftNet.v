(* C19, C23, C27, C28: the replica group.  Vocabulary: RaftSpec.v, RaftNetSpec.v. *)
From Verif Require Import RaftLog Raft RaftSpec RaftChain RaftNode RaftRun RaftNet RaftNetSpec RaftNetProofs
  Membership MembershipSpec MembershipProofs P_Membership P_Raft UtilProofs.

(* C19: whatever the schedule, with at most super_majority replicas ever put
   back, two replicas' committed entries at one index are the same *)
Theorem C19_committed_entries_agree :
  forall sz hmac M sm evs s k1 n1 A1 k2 n2 A2 i e1 e2,
  net_reached sz hmac M sm evs s -> fixed_membership evs -> no_clash s -> psize (w_rolled s) <= sm ->
  was s k1 n1 A1 -> was s k2 n2 A2 -> i <= n_commit n1 -> i <= n_commit n2 ->
  nth_entry A1 i = Some e1 -> nth_entry A2 i = Some e2 -> e1 = e2.
Proof.
  intros sz hmac M sm evs s k1 n1 A1 k2 n2 A2 i e1 e2 Hr Hf Hn Hrb. intros.
  destruct (reached_inv _ _ _ _ _ _ Hr Hf Hn) as [H7 [H8 [L0 HI]]].
  eapply (agree_entry hmac M sm L0 H7 H8 _ s k1 n1 A1 k2 n2 A2); eassumption.
Qed.
(* ... one committed log is a prefix of the other ... *)
Theorem C19_committed_logs_are_prefixes :
  forall sz hmac M sm evs s k1 n1 A1 k2 n2 A2,
  net_reached sz hmac M sm evs s -> fixed_membership evs -> no_clash s -> psize (w_rolled s) <= sm ->
  was s k1 n1 A1 -> was s k2 n2 A2 ->
  prefix (upto (n_commit n1) A1) (upto (n_commit n2) A2) \/ prefix (upto (n_commit n2) A2) (upto (n_commit n1) A1).
Proof.
  intros sz hmac M sm evs s k1 n1 A1 k2 n2 A2 Hr Hf Hn Hrb. intros.
  destruct (reached_inv _ _ _ _ _ _ Hr Hf Hn) as [H7 [H8 [L0 HI]]].
  eapply (commits_agree hmac M sm L0 H7 H8 _ s k1 n1 A1 k2 n2 A2); eassumption.
Qed.
(* ... what a replica still stores is its full log, and every committed entry is
   in it ... *)
Theorem C19_committed_entries_exist :
  forall sz hmac M sm evs s k n A,
  net_reached sz hmac M sm evs s -> fixed_membership evs -> no_clash s -> was s k n A ->
  n_me n = k /\ n_commit n <= llen A /\ forall i e, at_idx (n_log n) i = Some e -> nth_entry A i = Some e.
Proof.
  intros sz hmac M sm evs s k n A Hr Hf Hn Hw.
  destruct (reached_inv _ _ _ _ _ _ Hr Hf Hn) as [H7 [H8 [L0 HI]]].
  destruct (gi_past _ _ _ _ _ _ HI _ _ _ Hw) as [HR _].
  split; [apply (ri_id _ _ _ _ _ _ _ _ _ _ _ HR)|]. split; [apply (ri_cm _ _ _ _ _ _ _ _ _ _ _ HR)|].
  intros i e. apply (st_at_some _ _ _ _ _ (ri_st _ _ _ _ _ _ _ _ _ _ _ HR)).
Qed.
(* ... and so the databases are fed the same entries *)
Theorem C19_applied_entries_agree :
  forall sz hmac M sm evs s k1 k2 i e1 e2,
  net_reached sz hmac M sm evs s -> fixed_membership evs -> no_clash s -> psize (w_rolled s) <= sm ->
  In (k1, (i, e1)) (w_taken s) -> In (k2, (i, e2)) (w_taken s) -> e1 = e2.
Proof.
  intros sz hmac M sm evs s k1 k2 i e1 e2 Hr Hf Hn Hrb T1 T2.
  destruct (reached_inv _ _ _ _ _ _ Hr Hf Hn) as [H7 [H8 [L0 HI]]].
  destruct (gi_taken _ _ _ _ _ _ HI _ _ _ T1) as [n1 [A1 [I1 [C1 E1]]]], (gi_taken _ _ _ _ _ _ HI _ _ _ T2) as [n2 [A2 [I2 [C2 E2]]]].
  eapply (agree_entry hmac M sm L0 H7 H8 _ s k1 n1 A1 k2 n2 A2); eassumption.
Qed.

(* C23 *)
Theorem C23_one_leader_per_term :
  forall sz hmac M sm evs s k1 n1 A1 k2 n2 A2,
  net_reached sz hmac M sm evs s -> fixed_membership evs -> no_clash s -> psize (w_rolled s) <= sm ->
  was s k1 n1 A1 -> was s k2 n2 A2 -> is_leader n1 = true -> is_leader n2 = true -> n_term n1 = n_term n2 -> k1 = k2.
Proof.
  intros sz hmac M sm evs s k1 n1 A1 k2 n2 A2 Hr Hf Hn Hrb. intros.
  destruct (reached_inv _ _ _ _ _ _ Hr Hf Hn) as [H7 [H8 [L0 HI]]].
  eapply (one_leader hmac M sm L0 H7 H8 _ s k1 n1 A1 k2 n2 A2); eassumption.
Qed.

(* --- a checker for no_clash ------------------------------------------------ *)
Definition replica_eqb (a b : replica) : bool := (beq (rp_id a) (rp_id b) && Bool.eqb (rp_voting a) (rp_voting b))%bool.
Fixpoint group_eqb (a b : rgroup) : bool :=
  match a, b with [], [] => true | x :: a', y :: b' => (replica_eqb x y && group_eqb a' b')%bool | _, _ => false end.
Definition inner_eqb (a b : inner) : bool :=
  match a, b with
  | INone, INone => true | IData x, IData y => beq x y | IMins x, IMins y => beq x y | IMember x, IMember y => group_eqb x y
  | _, _ => false
  end.
Lemma group_eqb_eq a : forall b, group_eqb a b = true -> a = b.
Proof.
  induction a as [|[i v] a IH]; intros [|[i' v'] b] H; try discriminate; [reflexivity|]. cbn in H.
  apply andb_prop in H as [H1 H2]. apply andb_prop in H1 as [H1 H3]. cbn in H1, H3. apply beq_eq in H1. apply Bool.eqb_prop in H3.
  apply IH in H2. congruence.
Qed.
Lemma inner_eqb_eq a b : inner_eqb a b = true -> a = b.
Proof. destruct a, b; cbn; try discriminate; auto; intros H; f_equal; (apply beq_eq in H || apply group_eqb_eq in H); assumption. Qed.
Definition fine_at (A B : list entry) (j : nat) : bool :=
  match nth_error A j, nth_error B j with
  | Some a, Some b => (negb (beq (e_hash a) (e_hash b))
      || (beq (prev_hash A j) (prev_hash B j) && (e_term a =? e_term b) && inner_eqb (e_inner a) (e_inner b)))%bool
  | _, _ => true
  end.
Definition no_clash_b (s : net) : bool :=
  forallb (fun x => forallb (fun y => forallb (fine_at (snd (snd x)) (snd (snd y))) (seq 0 (length (snd (snd x))))) (w_past s)) (w_past s).
Lemma no_clash_b_sound s : no_clash_b s = true -> no_clash s.
Proof.
  intros H k1 n1 A1 k2 n2 A2 I1 I2 [j [a [b [Ha [Hb [Eh Hd]]]]]]. unfold no_clash_b in H.
  rewrite forallb_forall in H. specialize (H _ I1). rewrite forallb_forall in H. specialize (H _ I2). rewrite forallb_forall in H.
  cbn [snd] in H. assert (Hj : In j (seq 0 (length A1))) by (apply in_seq; split; [lia|apply nth_error_Some; congruence]).
  specialize (H j Hj). unfold fine_at in H. rewrite Ha, Hb, Eh in H.
  assert (Hr : beq (e_hash b) (e_hash b) = true) by now apply beq_eq. rewrite Hr in H. cbn [negb orb] in H.
  apply andb_prop in H as [H1 H3]. apply andb_prop in H1 as [H1 H2]. apply beq_eq in H1. apply inner_eqb_eq in H3.
  destruct Hd as [Hd|[Hd|Hd]]; [congruence|lia|congruence].
Qed.

(* --- concrete groups -------------------------------------------------------- *)
Definition x_seat (chunk : N) (k : N) : seat := Seat (pid k) 0 0 100000 (RConfig 1 1 10 chunk) true 1.
Definition x_group3 : members := Members (map pid [1; 2; 3]) (map pid [1; 2; 3]).
Definition x_group5 : members := Members (map pid [1; 2; 3; 4; 5]) (map pid [1; 2; 3; 4]).
Definition x_start (M : members) (sm chunk : N) (ks : list N) : outcome net :=
  start toy_sizes toy_hmac 77 M sm [] (map (x_seat chunk) ks).

(* schedules, written with "the last message so far from one replica to another" *)
Inductive cmd := Tick (k : N) | Pass (from to : N) | Ask (k : N) (x : inner) | Take (k : N) | Back (k : N) (j : nat) | Meet (k j : N).
Definition is_to (from k : N) (x : bytes * (option bytes * rmsg)) : bool :=
  (beq (fst x) (pid from) && match fst (snd x) with None => true | Some p => beq p (pid k) end)%bool.
Fixpoint last_such (from k : N) (l : list (bytes * (option bytes * rmsg))) (i acc : nat) : nat :=
  match l with [] => acc | x :: l' => last_such from k l' (S i) (if is_to from k x then i else acc) end.
Definition event_of (s : net) (c : cmd) : event :=
  match c with
  | Tick k => ECall (pid k) (OTick true 1)
  | Ask k x => ECall (pid k) (ORequest true 1 x)
  | Take k => ECall (pid k) OTake
  | Back k j => ERollback (pid k) j
  | Meet k j => ECall (pid k) (OReset (pid j))
  | Pass from k => EDeliver (pid k) (last_such from k (w_soup s) 0 (length (w_soup s))) true true 1
  end.
Fixpoint events_of (s : net) (cs : list cmd) : list event :=
  match cs with [] => [] | c :: cs' => let ev := event_of s c in ev :: events_of (net_step toy_sizes toy_hmac s ev) cs' end.
Fixpoint both (n : nat) (a b : N) : list cmd := match n with O => [] | S n' => Pass a b :: Pass b a :: both n' a b end.

Lemma pids_sorted3 : ssorted (map pid [1; 2; 3]).
Proof. cbn -[pid blt]. repeat split; intros q Hq; cbn -[pid blt] in Hq; intuition (subst; vm_compute; reflexivity). Qed.
Lemma pids_sorted4 : ssorted (map pid [1; 2; 3; 4]).
Proof. cbn -[pid blt]. repeat split; intros q Hq; cbn -[pid blt] in Hq; intuition (subst; vm_compute; reflexivity). Qed.
Lemma pids_sorted5 : ssorted (map pid [1; 2; 3; 4; 5]).
Proof. cbn -[pid blt]. repeat split; intros q Hq; cbn -[pid blt] in Hq; intuition (subst; vm_compute; reflexivity). Qed.
Lemma x_may3 sm chunk : sm < 3 -> may_start toy_hmac x_group3 sm [] (map (x_seat chunk) [1; 2; 3]).
Proof.
  intros H. split; [split; [exact pids_sorted3|split; [exact pids_sorted3|apply incl_refl]]|].
  split; [unfold psize; cbn [x_group3 m_voting map length]; lia|]. split; [unfold psize; cbn [x_group3 m_voting map length]; lia|].
  split; [exact I|]. rewrite map_map. cbn [x_seat s_id]. change (fun x => pid x) with pid.
  split; [apply ssorted_NoDup, pids_sorted3|]. split; [apply incl_refl|].
  apply Forall_forall. intros x Hx. apply in_map_iff in Hx as [k [<- _]]. now left.
Qed.
Lemma x_may5 chunk : may_start toy_hmac x_group5 0 [] (map (x_seat chunk) [1; 2; 3; 4; 5]).
Proof.
  split; [split; [exact pids_sorted5|split; [exact pids_sorted4|intros x Hx; cbn -[pid] in *; tauto]]|].
  split; [unfold psize; cbn [x_group5 m_voting map length]; lia|]. split; [unfold psize; cbn [x_group5 m_voting map length]; lia|].
  split; [exact I|]. rewrite map_map. cbn [x_seat s_id]. change (fun x => pid x) with pid.
  split; [apply ssorted_NoDup, pids_sorted5|]. split; [intros x Hx; cbn -[pid] in *; tauto|].
  apply Forall_forall. intros x Hx. apply in_map_iff in Hx as [k [<- _]]. now left.
Qed.
Definition fixed_b (evs : list event) : bool :=
  forallb (fun ev => match ev with ECall _ (ORequest _ _ (IMember _)) => false | _ => true end) evs.
Lemma fixed_b_sound evs : fixed_b evs = true -> fixed_membership evs.
Proof.
  intros H k ok rnd g Hin. unfold fixed_b in H. rewrite forallb_forall in H. specialize (H _ Hin). discriminate.
Qed.
Definition run_cmds (o : outcome net) (cs : list cmd) : list event * net :=
  match o with
  | Ret s => let evs := events_of s cs in (evs, net_run toy_sizes toy_hmac s evs)
  | Crash => ([], Net [] [] [] [] [])
  end.
Lemma run_cmds_reached M sm chunk ks cs : may_start toy_hmac M sm [] (map (x_seat chunk) ks) ->
  (exists s0, x_start M sm chunk ks = Ret s0) ->
  net_reached toy_sizes toy_hmac M sm (fst (run_cmds (x_start M sm chunk ks) cs)) (snd (run_cmds (x_start M sm chunk ks) cs)).
Proof.
  intros Hm [s0 E]. exists 77, [], (map (x_seat chunk) ks), s0. split; [exact Hm|]. split; [exact E|].
  rewrite E. reflexivity.
Qed.

(* C19, C23, not vacuous: three voters, super_majority 1.  1 is elected, commits
   a request; 2 is put back to its first state and then helps to elect 3, which
   commits another request. *)
Definition x_cmds19 : list cmd :=
  [Tick 1; Pass 1 2; Pass 2 1; Pass 1 3; Pass 3 1; Ask 1 (IData [42])] ++ both 6 1 2 ++ both 6 1 3 ++ both 3 1 2 ++
  [Take 1; Take 1; Take 1; Back 2 1; Tick 3; Pass 3 2; Pass 2 3; Pass 3 1; Pass 1 3; Ask 3 (IData [43])] ++
  both 6 3 1 ++ both 6 3 2 ++ both 4 3 1 ++ [Take 3; Take 3; Take 3; Take 3].
Definition x_net19 : list event * net := run_cmds (x_start x_group3 1 1000 [1; 2; 3]) x_cmds19.
Example x_rolled_back_group :
  net_reached toy_sizes toy_hmac x_group3 1 (fst x_net19) (snd x_net19) /\
  fixed_membership (fst x_net19) /\ no_clash (snd x_net19) /\ psize (w_rolled (snd x_net19)) = 1 /\
  map (fun x => (hd 0 (fst x), (fst (snd x), e_inner (snd (snd x))))) (w_taken (snd x_net19)) =
    [(1, (1, INone)); (1, (2, IData [42])); (3, (1, INone)); (3, (2, IData [42])); (3, (3, INone)); (3, (4, IData [43]))].
Proof.
  split; [apply run_cmds_reached; [apply x_may3; reflexivity|eexists; vm_compute; reflexivity]|].
  split; [apply fixed_b_sound; vm_compute; reflexivity|].
  split; [apply no_clash_b_sound; vm_compute; reflexivity|].
  split; vm_compute; reflexivity.
Qed.
(* the bound on rolled back replicas cannot be relaxed: super_majority 0, one
   replica put back *)
Definition x_cmds_tight : list cmd :=
  [Tick 1; Pass 1 2; Pass 2 1; Ask 1 (IData [42])] ++ both 7 1 2 ++ [Take 1; Take 1; Back 2 1;
   Tick 3; Pass 3 2; Pass 2 3; Ask 3 (IData [43])] ++ both 7 3 2 ++ [Take 3; Take 3].
Definition x_net_tight : list event * net := run_cmds (x_start x_group3 0 1000 [1; 2; 3]) x_cmds_tight.
Example C19_bound_is_tight :
  net_reached toy_sizes toy_hmac x_group3 0 (fst x_net_tight) (snd x_net_tight) /\
  fixed_membership (fst x_net_tight) /\ no_clash (snd x_net_tight) /\ psize (w_rolled (snd x_net_tight)) = 1 /\
  map (fun x => (hd 0 (fst x), (fst (snd x), e_inner (snd (snd x))))) (w_taken (snd x_net_tight)) =
    [(1, (1, INone)); (1, (2, IData [42])); (3, (1, INone)); (3, (2, IData [43]))].
Proof.
  split; [apply run_cmds_reached; [apply x_may3; reflexivity|eexists; vm_compute; reflexivity]|].
  split; [apply fixed_b_sound; vm_compute; reflexivity|].
  split; [apply no_clash_b_sound; vm_compute; reflexivity|].
  split; vm_compute; reflexivity.
Qed.

(* --- C27 -------------------------------------------------------------------- *)
Definition x_change (vs : list N) : inner := IMember (map (fun k => Replica (pid k) (existsb (N.eqb k) vs)) [1; 2; 3; 4; 5]).
(* Voters 1..4 of members 1..5.  1, leader of term 1, asks for 5 to vote as well
   and tells only 5.  2, elected in term 2 by 2, 3, 4, asks for 1 not to vote and
   commits with 3.  1, elected in term 3 by 1, 4, 5 under its own idea of the
   membership, commits its own entries with 4 and 5. *)
Definition x_cmds27 : list cmd :=
  [Tick 1; Pass 1 2; Pass 2 1; Pass 1 3; Pass 3 1; Ask 1 (x_change [1; 2; 3; 4; 5])] ++ both 2 1 5 ++
  [Tick 2; Pass 2 3; Pass 3 2; Pass 2 1; Pass 2 4; Pass 4 2; Ask 2 (x_change [2; 3; 4])] ++ both 5 2 3 ++
  [Tick 1; Pass 1 4; Pass 4 1; Pass 1 5; Pass 5 1] ++ both 4 1 4 ++ both 3 1 5 ++ both 2 1 4 ++ both 2 1 5 ++
  [Take 1; Take 2; Take 1; Take 2].
Definition x_net27 : list event * net := run_cmds (x_start x_group5 0 1000 [1; 2; 3; 4; 5]) x_cmds27.
(* two replicas, no rollback, no hash collision, every change a safe step: the
   entries they commit and apply at indexes 1 and 2 differ *)
Theorem C27_agreement_across_membership_changes_refuted :
  exists sz hmac M sm evs s, net_reached sz hmac M sm evs s /\ no_clash s /\ w_rolled s = [] /\
    exists k1 k2 i e1 e2, k1 <> k2 /\ In (k1, (i, e1)) (w_taken s) /\ In (k2, (i, e2)) (w_taken s) /\ e1 <> e2.
Proof.
  exists toy_sizes, toy_hmac, x_group5, 0, (fst x_net27), (snd x_net27).
  split; [apply run_cmds_reached; [apply x_may5|eexists; vm_compute; reflexivity]|].
  split; [apply no_clash_b_sound; vm_compute; reflexivity|]. split; [vm_compute; reflexivity|].
  assert (E : exists e1 e2 e3 e4, w_taken (snd x_net27) = [(pid 1, (1, e1)); (pid 2, (1, e2)); (pid 1, (2, e3)); (pid 2, (2, e4))] /\ e_term e1 = 1 /\ e_term e2 = 2).
  { do 4 eexists. split; [vm_compute; reflexivity|]. split; vm_compute; reflexivity. }
  destruct E as [e1 [e2 [e3 [e4 [E [E1 E2]]]]]]. exists (pid 1), (pid 2), 1, e1, e2. rewrite E.
  split; [vm_compute; discriminate|]. split; [now left|]. split; [right; now left|]. congruence.
Qed.

(* --- C28 -------------------------------------------------------------------- *)
(* 1 leads term 1, its first entry reaches nobody; 3 leads term 2 with two
   entries nobody else gets; 1 leads term 3 and commits its entry of term 1 with
   2; 3 is elected in term 4 by 2. *)
Definition x_cmds28 : list cmd :=
  [Tick 1; Pass 1 2; Pass 2 1; Tick 3; Tick 3; Pass 3 2; Pass 3 1; Pass 2 3; Ask 3 (IData [7]);
   Tick 1; Pass 1 2; Pass 2 1] ++ both 3 1 2 ++ [Meet 1 2; Tick 1] ++ both 2 1 2 ++ [Pass 1 3; Tick 3; Pass 3 2; Pass 2 3].
Definition x_net28 : list event * net := run_cmds (x_start x_group3 0 1 [1; 2; 3]) x_cmds28.
(* k2 becomes leader in a later term than the one in which k1 already had its
   entry at i committed, and has a different entry there *)
Theorem C28_leader_has_committed_entries_refuted :
  exists sz hmac M sm evs s, net_reached sz hmac M sm evs s /\ fixed_membership evs /\ no_clash s /\ w_rolled s = [] /\
    exists k1 n1 A1 k2 n2 A2 i e1 e2, was s k1 n1 A1 /\ was s k2 n2 A2 /\ i <= n_commit n1 /\ nth_entry A1 i = Some e1 /\
      n_term n1 < n_term n2 /\ is_leader n2 = true /\ nth_entry A2 i = Some e2 /\ e1 <> e2.
Proof.
  exists toy_sizes, toy_hmac, x_group3, 0, (fst x_net28), (snd x_net28).
  split; [apply run_cmds_reached; [apply x_may3; reflexivity|eexists; vm_compute; reflexivity]|].
  split; [apply fixed_b_sound; vm_compute; reflexivity|].
  split; [apply no_clash_b_sound; vm_compute; reflexivity|]. split; [vm_compute; reflexivity|].
  assert (E : exists j1 j2 n1 A1 n2 A2 e1 e2, nth_error (w_past (snd x_net28)) j1 = Some (pid 1, (n1, A1)) /\
     nth_error (w_past (snd x_net28)) j2 = Some (pid 3, (n2, A2)) /\ n_commit n1 = 1 /\ nth_entry A1 1 = Some e1 /\
     n_term n1 = 3 /\ n_term n2 = 4 /\ is_leader n2 = true /\ nth_entry A2 1 = Some e2 /\ e_term e1 = 1 /\ e_term e2 = 2).
  { exists (length (w_past (snd x_net28)) - 5)%nat, (length (w_past (snd x_net28)) - 1)%nat. do 6 eexists.
    split; [vm_compute; reflexivity|]. split; [vm_compute; reflexivity|].
    repeat (split; [vm_compute; reflexivity|]). vm_compute; reflexivity. }
  destruct E as [j1 [j2 [n1 [A1 [n2 [A2 [e1 [e2 [E1 [E2 [E3 [E4 [E5 [E6 [E7 [E8 [E9 E10]]]]]]]]]]]]]]]]].
  exists (pid 1), n1, A1, (pid 3), n2, A2, 1, e1, e2.
  split; [exact (nth_error_In _ _ E1)|]. split; [exact (nth_error_In _ _ E2)|]. split; [lia|]. split; [assumption|].
  split; [lia|]. split; [assumption|]. split; [assumption|]. congruence.
Qed.

Print Assumptions C19_committed_entries_agree.
Print Assumptions C19_committed_logs_are_prefixes.
Print Assumptions C19_committed_entries_exist.
Print Assumptions C19_applied_entries_agree.
Print Assumptions C23_one_leader_per_term.
Print Assumptions C27_agreement_across_membership_changes_refuted.
Print Assumptions C28_leader_has_committed_entries_refuted.
