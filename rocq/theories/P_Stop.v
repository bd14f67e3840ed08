(* C88: what makes a replica stop.  Vocabulary: StopSpec.v, RaftMoveSpec.v,
   RaftNetSpec.v. *)
From Verif Require Import RaftLog Raft RaftSpec RaftChain RaftNode RaftRun RaftNet RaftNetSpec RaftNetProofs RaftMoveSpec RaftMoveProofs
  Membership MembershipSpec MembershipProofs P_Membership P_Raft P_RaftNet UtilProofs P_RaftFresh P_RaftComplete P_RaftMove MemberLogSpec MemberLogProofs P_MemberLog
  StopSpec StopProofs.

(* C88: in a group whose memberships' quorums overlap, whatever calls are made, in
   whatever order messages arrive, are lost or come twice, and whichever replicas
   are put back: nothing makes a replica abort, but for a replica that is told to
   forget itself, and a leader that was put back and hears from a follower that
   holds entries it no longer has *)
Theorem C88_what_stops_a_replica :
  forall sz hmac M sm L0 evs ev s,
  net_reached_from sz hmac M sm L0 evs s -> changes_overlap M sm (evs ++ [ev]) -> no_clash s ->
  aborts sz hmac s ev ->
  (exists k, ev = ECall k (OReset k)) \/ (exists k, In k (w_rolled s) /\ beyond_leader s ev k).
Proof. intros sz hmac M sm L0 evs ev s. apply stops_only. Qed.
(* so nothing does while none is put back *)
Theorem C88_no_stop_unless_put_back :
  forall sz hmac M sm L0 evs ev s,
  net_reached_from sz hmac M sm L0 evs s -> changes_overlap M sm (evs ++ [ev]) -> no_clash s ->
  (forall k j, ~ In (ERollback k j) evs) -> (forall k, ev <> ECall k (OReset k)) -> ~ aborts sz hmac s ev.
Proof.
  intros sz hmac M sm L0 evs ev s Hr Hc Hn Hb He Ha. destruct (stops_only _ _ _ _ _ _ _ _ Hr Hc Hn Ha) as [[k E]|(k & Hk & _)]; [exact (He k E)|].
  destruct Hr as (group & xs & s0 & _ & E & ->).
  enough (X : forall evs s1, (forall k j, ~ In (ERollback k j) evs) -> w_rolled (net_run sz hmac s1 evs) = w_rolled s1).
  { rewrite (X evs s0 Hb) in Hk. unfold start in E. apply bind_inv in E as (p & _ & E). injection E as <-. destruct Hk. }
  clear. induction evs as [|e evs IH]; intros s Hb; [reflexivity|]. change (w_rolled (net_run sz hmac (net_step sz hmac s e) evs) = w_rolled s). rewrite IH by (intros k j X; apply (Hb k j); now right).
  assert (Ha : forall k o, w_rolled (act sz hmac k o s) = w_rolled s).
  { intros k o. unfold act. destruct (lookup _ _) as [[n A]|]; [|reflexivity]. destruct (rstep _ _ _ _) as [[n' a]|]; reflexivity. }
  destruct e as [k o|k j ok1 ok2 rnd|k j]; cbn [net_step].
  - destruct o; auto.
  - destruct (nth_error _ _) as [[from [to m]]|]; [|reflexivity]. destruct (match to with Some p => _ | None => _ end); auto.
  - destruct (Hb k j). now left.
Qed.

(* [aborts], computed *)
Definition aborts_b (s : net) (ev : event) : bool :=
  match ev with
  | ECall k (OReceive _ _ _ _ _) => false
  | ECall k o => match lookup k (w_now s) with Some (n, _) => match rstep toy_sizes toy_hmac n o with Crash => true | _ => false end | None => false end
  | EDeliver k j ok1 ok2 rnd =>
      match nth_error (w_soup s) j, lookup k (w_now s) with
      | Some (from, (Some p, m)), Some (n, _) => if beq p k then match rstep toy_sizes toy_hmac n (OReceive ok1 ok2 rnd from m) with Crash => true | _ => false end else false
      | _, _ => false
      end
  | ERollback _ _ => false
  end.
Lemma aborts_b_sound s ev : aborts_b s ev = true -> aborts toy_sizes toy_hmac s ev.
Proof.
  assert (Hc : forall k o, match lookup k (w_now s) with Some (n, _) => match rstep toy_sizes toy_hmac n o with Crash => true | _ => false end | None => false end = true ->
    exists n A, lookup k (w_now s) = Some (n, A) /\ rstep toy_sizes toy_hmac n o = Crash).
  { intros k o H. destruct (lookup k (w_now s)) as [[n A]|]; [|discriminate]. destruct (rstep toy_sizes toy_hmac n o) eqn:E; [discriminate|eauto]. }
  intros H. destruct ev as [k o|k j ok1 ok2 rnd|k j]; unfold aborts_b, aborts in *; [| |discriminate].
  - specialize (Hc k o). destruct o; try discriminate H; exact (Hc H).
  - destruct (nth_error (w_soup s) j) as [[from [[p|] m]]|]; try discriminate. destruct (lookup k (w_now s)) as [[n A]|]; [|discriminate].
    destruct (beq p k) eqn:Eb; [|discriminate]. apply beq_eq in Eb. subst p.
    destruct (rstep toy_sizes toy_hmac n (OReceive ok1 ok2 rnd from m)) eqn:Er; [discriminate|]. exists from, (Some k), m, n, A. auto.
Qed.

(* the first exception is one: 1 is elected and has 2 take a request; put back to
   where it was elected, it gets 2's answer *)
Definition x_cmds88 : list cmd := [Tick 1; Pass 1 2; Pass 2 1; Pass 1 3; Pass 3 1; Ask 1 (IData [42])] ++ both 3 1 2 ++ [Pass 1 2; Back 1 7].
Definition x_net88 : list event * net := run_cmds (x_start x_group3 1 1000 [1; 2; 3]) x_cmds88.
Definition x_last88 : event := event_of (snd x_net88) (Pass 2 1).
Lemma x_fixed88 evs : fixed_b evs = true -> changes_overlap x_group3 1 evs.
Proof.
  intros Hf. exists (eq x_group3). split; [reflexivity|]. split; [now apply fixed_within, fixed_b_sound|].
  assert (E : exists s0, x_start x_group3 1 1000 [1; 2; 3] = Ret s0) by (eexists; vm_compute; reflexivity).
  destruct (reached_sizes _ _ _ _ _ _ (run_cmds_reached x_group3 1 1000 [1; 2; 3] [] (x_may3 1 1000 ltac:(reflexivity)) E)) as (_ & H1 & H2). now apply fixed_overlap.
Qed.
Lemma x_reached88 cs : net_reached_from toy_sizes toy_hmac x_group3 1 [] (fst (run_cmds (x_start x_group3 1 1000 [1; 2; 3]) cs)) (snd (run_cmds (x_start x_group3 1 1000 [1; 2; 3]) cs)).
Proof.
  assert (E : exists s0, x_start x_group3 1 1000 [1; 2; 3] = Ret s0) by (eexists; vm_compute; reflexivity).
  destruct E as [s0 E]. exists 77, (map (x_seat 1000) [1; 2; 3]), s0. split; [apply x_may3; reflexivity|]. split; [exact E|]. rewrite E. reflexivity.
Qed.
Example C88_put_back_leader_stops :
  net_reached_from toy_sizes toy_hmac x_group3 1 [] (fst x_net88) (snd x_net88) /\ changes_overlap x_group3 1 (fst x_net88 ++ [x_last88]) /\ no_clash (snd x_net88) /\
  w_rolled (snd x_net88) = [pid 1] /\ aborts toy_sizes toy_hmac (snd x_net88) x_last88.
Proof.
  split; [apply x_reached88|]. split; [apply x_fixed88; vm_compute; reflexivity|]. split; [apply no_clash_b_sound; vm_compute; reflexivity|].
  split; [vm_compute; reflexivity|]. apply aborts_b_sound. vm_compute. reflexivity.
Qed.
(* so is the other: 1, a candidate, is told that its connection to itself is new *)
Definition x_self88 : list event * net := run_cmds (x_start x_group3 1 1000 [1; 2; 3]) [Tick 1].
Example C88_reset_of_itself_stops :
  net_reached_from toy_sizes toy_hmac x_group3 1 [] (fst x_self88) (snd x_self88) /\
  changes_overlap x_group3 1 (fst x_self88 ++ [ECall (pid 1) (OReset (pid 1))]) /\ no_clash (snd x_self88) /\
  aborts toy_sizes toy_hmac (snd x_self88) (ECall (pid 1) (OReset (pid 1))).
Proof.
  split; [apply x_reached88|]. split; [apply x_fixed88; vm_compute; reflexivity|]. split; [apply no_clash_b_sound; vm_compute; reflexivity|].
  apply aborts_b_sound. vm_compute. reflexivity.
Qed.
(* a call that changes who votes, in the group of C87 where entries that do were
   replaced and one more voter was added, which this takes back *)
Definition x_ev88 : event := ECall (pid 2) (ORequest true 1 (x_change [1; 2; 3; 4])).
Example C88_meets :
  net_reached_from toy_sizes toy_hmac x_group5 0 [] (fst x_net_drop) (snd x_net_drop) /\ changes_overlap x_group5 0 (fst x_net_drop ++ [x_ev88]) /\
  no_clash (snd x_net_drop) /\ (forall k j, ~ In (ERollback k j) (fst x_net_drop)) /\ (forall k, x_ev88 <> ECall k (OReset k)) /\
  map (fun x => (is_leader (fst (snd x)), length (snd (snd x)))) (w_now (snd x_net_drop)) = [(false, 3); (true, 3); (false, 3); (false, 2); (false, 3)]%nat /\
  map (fun x => (is_leader (fst (snd x)), length (snd (snd x)))) (w_now (net_step toy_sizes toy_hmac (snd x_net_drop) x_ev88)) =
    [(false, 3); (true, 4); (false, 3); (false, 2); (false, 3)]%nat.
Proof.
  destruct C87_meets as (H1 & _ & H3 & _). split; [exact H1|]. clear H1.
  assert (Nv : NoDup (map pid [1; 2; 3; 4])).
  { cbn [map]. repeat (constructor; [intros X; cbn in X; repeat (destruct X as [X|X]; [discriminate|]); destruct X|]). constructor. }
  split.
  { exists (fun m => wf_members m /\ voters_or_one_more (map pid [1; 2; 3; 4]) (pid 5) m). split; [split; [exact (proj1 (x_may5 1000))|left; cbn; tauto]|]. split.
    - intros k ok rnd g m Hin Em. split; [now apply from_proto_wf in Em|]. apply x_one_more. revert k ok rnd g m Hin Em. apply asked_b_sound. vm_compute. reflexivity.
    - apply one_more_overlap; [exact Nv|reflexivity|reflexivity|]. intros X; cbn in X; repeat (destruct X as [X|X]; [discriminate|]); destruct X. }
  split; [exact H3|]. clear H3. split.
  { intros k j X. assert (Y : forallb (fun ev => match ev with ERollback _ _ => false | _ => true end) (fst x_net_drop) = true) by (vm_compute; reflexivity).
    rewrite forallb_forall in Y. specialize (Y _ X). discriminate. }
  split; [intros k; discriminate|]. split; vm_compute; reflexivity.
Qed.

Print Assumptions C88_what_stops_a_replica.
Print Assumptions C88_no_stop_unless_put_back.
