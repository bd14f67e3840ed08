(* C85: a message given to an enclave behind a socket runs at most once, its caller gets the
   status of that run and only after all that it put out, and outputs keep their order; all
   callers get their answer as long as the connection stands. *)
From Verif Require Import HostSocket HostSocketSpec HostSocketProofs.

(* C85_own_status.  Whatever the threads on both sides do, in whatever order, and whenever the
   connection fails: if SendMessage returns a status, the enclave ran that message exactly
   once, with that status. *)
Theorem C85_own_status : forall cap n s i st, reachable cap n s -> young s -> returned s i (Status st) -> statuses s i = [st].
Proof.
  intros cap n s i st R Y D. pose proof (inv_reach _ _ _ R Y) as I. apply filter_snd; [exact (v_done s I i st D)|]. pose proof (v_once s I i). lia.
Qed.
Print Assumptions C85_own_status.

Theorem C85_runs_at_most_once : forall cap n s i, reachable cap n s -> young s -> length (statuses s i) <= 1.
Proof.
  intros cap n s i R Y. pose proof (v_once s (inv_reach _ _ _ R Y) i) as O. unfold statuses. rewrite map_length. change (cnt (of_served i) (served s) <= 1). lia.
Qed.
Print Assumptions C85_runs_at_most_once.

(* C85_outputs.  What came out of the channel and what is in it is, in order and without gaps,
   what the enclave put out first; and what is not yet there does not come from a message
   whose caller has its answer. *)
Theorem C85_outputs : forall cap n s, reachable cap n s -> young s -> exists rest, got s ++ chan s ++ rest = outs s /\
  forall i st, returned s i (Status st) -> forall x, ~ In (i, x) rest.
Proof.
  intros cap n s R Y. pose proof (inv_reach _ _ _ R Y) as I. exists (pend (rd s) ++ outs_of (dn s)). split; [exact (v_outs s I)|].
  intros i st D x X. destruct (v_k2 s I i st D x) as [K1 K2]. apply in_app_or in X as [X|X].
  - destruct (rd s) as [|m y|]; cbn in X; try contradiction. destruct X as [[= -> ->]|[]]. now apply K2.
  - apply in_flat_map in X as (d & Id & X). destruct d; cbn in X; try contradiction. destruct X as [[= -> ->]|[]]. now apply K1.
Qed.
Print Assumptions C85_outputs.

(* C85_all_return_partial.  While the connection stands and somebody takes outputs out, every
   call returns a status: what has begun goes on for at most [work s] steps, and when it
   cannot go on any further then nobody waits.  Missing: the same after the connection is
   lost; see the refutation. *)
Theorem C85_all_return_partial : forall cap n s es s', 0 < cap -> 0 < n -> reachable cap n s -> young s -> conn s = true ->
  Forall (fun e => goes_on e = true) es -> run cap s es = Some s' ->
  length es <= work s /\ (cannot_go_on cap s' -> forall i, i < length (callers s) -> exists st, returned s' i (Status st)).
Proof.
  intros cap n s es s' C N R Y Cn F H. destruct (work_run cap es s s' (inv_reach _ _ _ R Y) Y Cn F H) as (L & I & Cn' & Le). split; [exact L|].
  intros X i Li. apply all_status; [exact I|exact Cn'| |rewrite Le; exact Li]. apply (none_waits cap); [exact C| |exact I|exact Cn'|exact X].
  destruct R as (es0 & R). rewrite (threads_run _ _ _ _ H), (threads_run _ _ _ _ R). cbn. now rewrite repeat_length.
Qed.
Print Assumptions C85_all_return_partial.

(* C85_all_return_refuted.  When the connection is lost, the goroutine that reads answers ends,
   and whoever waits for one waits for ever. *)
Theorem C85_all_return_refuted : forall cap n, exists s, reachable cap n s /\ waiting s 0 /\ forall es s', run cap s es = Some s' -> waiting s' 0.
Proof.
  intros cap n.
  set (s := Sock 1 [(1%N, 0)] [CWait 1] [] (repeat TIdle n) [] REnd [] false [] [] []).
  assert (H : run cap (sock0 n) [ECall; ESend 0; ELost; EReadErr] = Some s) by reflexivity.
  exists s. split; [eexists; exact H|]. split; [exists 1%N; now right|].
  intros es s' R. exists 1%N. right. exact (ended_run cap es s s' 0 1%N eq_refl eq_refl R).
Qed.
Print Assumptions C85_all_return_refuted.

(* The block of C84 over the socket: as long as nobody takes outputs out of a full channel, an
   answer behind an output in the stream does not get through, whatever else happens.  The
   goroutine that takes them out waits for such an answer itself when it resets a replica
   (dispatcher.go:162-174, client.go:139-142). *)
Definition fill : list event := [ECall; ESend 0; ETake 0] ++ repeat (EEmit 0 7%N) 101 ++ repeat ERead 101 ++ [ECall; ESend 1].
Theorem C84_never_stuck_on_socket_refuted : exists s, reachable 100 32 s /\ waiting s 1 /\
  forall es s', Forall (fun e => e <> ETakeOut) es -> run 100 s es = Some s' -> waiting s' 1.
Proof.
  destruct (run 100 (sock0 32) fill) as [s|] eqn:H; [|vm_compute in H; discriminate H].
  exists s. split; [exists fill; exact H|]. vm_compute in H. injection H as <-. split; [exists 2%N; right; reflexivity|].
  intros es s' F R. exists 2%N. right. eapply full_run; [| | |exact F|exact R]; [reflexivity|cbn; lia|reflexivity].
Qed.
Print Assumptions C84_never_stuck_on_socket_refuted.

(* two calls answered out of order, with outputs, each with its own status *)
Example two_calls : exists s, run 2 (sock0 2) [ECall; ECall; ESend 1; ESend 0; ETake 0; ETake 1; EEmit 0 5%N; EEmit 1 6%N; EEnd 1 8%N; EReply 1; EEnd 0 9%N; EReply 0;
    ERead; ERead; ELog; ERead; ETakeOut; ERead] = Some s
  /\ returned s 0 (Status 8) /\ returned s 1 (Status 9) /\ statuses s 0 = [8%N] /\ outs s = [(1, 5%N); (0, 6%N)] /\ got s = [(1, 5%N)].
Proof. eexists. split; [vm_compute; reflexivity|]. repeat split. Qed.
(* a call under way with the connection up, and a message that runs although its caller was told that sending failed *)
Example under_way : exists s, run 2 (sock0 2) [ECall; ECall; ESend 1; ETake 0] = Some s /\ conn s = true /\ young s /\ waiting s 0 /\ waiting s 1 /\ work s = 12.
Proof. eexists. split; [vm_compute; reflexivity|]. repeat split; exists 1%N + exists 2%N; now (left + right). Qed.
Example failed_but_run : exists s, run 2 (sock0 2) [ECall; ESendErr 0 true; ETake 0; EEnd 0 3%N] = Some s /\ returned s 0 SendFailed /\ statuses s 0 = [3%N].
Proof. eexists. split; [vm_compute; reflexivity|]. repeat split. Qed.
