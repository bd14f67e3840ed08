(* C80: the threads of the enclave and the locks they take. *)
From Verif Require Import LocksSpec LocksProofs LocksInv.
From Coq Require Import Lia.

(* However many threads there are and whatever messages they take, in whatever order and
   however their steps interleave: there are never threads that wait for each other in a
   circle, nor one that waits for itself.
   Missing: [raced s = false] sets one race aside, see [C80_no_deadlock_refuted]. *)
Theorem C80_no_deadlock_partial n s ts : reachable n s -> raced s = false -> ~ deadlock s ts.
Proof. intros H. apply (no_deadlock n). apply inv_reachable, H. Qed.
Print Assumptions C80_no_deadlock_partial.

(* While any thread has a message, some thread can take a step. *)
Theorem C80_some_thread_goes_on_partial n s : reachable n s -> raced s = false ->
  (exists i, (i < n)%nat /\ ~ idle s i) -> exists s', works s s'.
Proof. intros H. apply some_works. apply inv_reachable, H. Qed.
Print Assumptions C80_some_thread_goes_on_partial.

(* So when no new message is taken every message is done with: there is no endless
   sequence of steps, and where no step is left every thread is done and no lock is held. *)
Theorem C80_messages_are_finished_partial n s : reachable n s ->
  Acc (fun a b => works b a) s /\
  forall s', goes_on s s' -> raced s' = false -> (forall s'', ~ works s' s'') -> (forall i, (i < n)%nat -> idle s' i) /\ held s' = [].
Proof.
  intros H. apply inv_reachable in H. split; [apply works_acc|]. intros s' Hg Hr Hw.
  assert (Hi : inv n s') by (eapply inv_goes_on; eauto).
  assert (Hidle : forall i, (i < n)%nat -> idle s' i).
  { intros i Hlt. destruct Hi as (Hlen & Hi').
    assert (Hlt' := Hlt). rewrite <- Hlen in Hlt'. apply nth_error_Some in Hlt'.
    destruct (nth_error (threads s') i) as [p|] eqn:Hp; [|congruence].
    destruct p; try exact Hp; exfalso;
      (destruct (some_works n s') as [s'' Hs'']; [split; [exact Hlen|exact Hi']|exact Hr|exists i; split; [exact Hlt|unfold idle; congruence]|exact (Hw _ Hs'')]). }
  split; [exact Hidle|]. destruct Hi as (Hlen & Hn & Ho & Hown).
  destruct (held s') as [|[l i] h] eqn:Eh; [reflexivity|exfalso].
  assert (Hin : In (l, i) (held s')) by (rewrite Eh; left; reflexivity). rewrite <- Eh in Ho, Hown.
  assert (Hlt := Hown Hr l i Hin). specialize (Ho Hr i Done (Hidle i Hlt)). cbn in Ho.
  apply mine_in in Hin. rewrite Ho in Hin. destruct Hin.
Qed.
Print Assumptions C80_messages_are_finished_partial.

(* No lock is ever held twice. *)
Theorem C80_locks_exclude n s l i j : reachable n s -> holder s i l -> holder s j l -> i = j.
Proof.
  intros H Hi Hj. apply inv_reachable in H. destruct H as (_ & Hn & _). unfold holder in *. revert Hn Hi Hj.
  induction (held s) as [|[x k] h IH]; [contradiction|]. cbn [map fst]. intros Hn Hi Hj. inversion Hn as [|? ? Hx Hn']; subst.
  destruct Hi as [Hi|Hi], Hj as [Hj|Hj]; [congruence| | |auto].
  - injection Hi as -> ->. exfalso. apply Hx. apply (in_map fst) in Hj. exact Hj.
  - injection Hj as -> ->. exfalso. apply Hx. apply (in_map fst) in Hi. exact Hi.
Qed.
Print Assumptions C80_locks_exclude.

(* The race.  A peer asks to be sent the state (RReplicate); one part is sent to it.  Then
   another thread is told by the host that the peer is gone (MReset): the callback of that
   part sees that nothing has been answered.  Now the next part cannot be sent; its
   callback, run at once, sees the same.  The other thread sets the flag first; so this
   callback goes on to lock raft_.mu, which its own thread holds (core.cc:1331-1337). *)
Local Open Scope nat_scope.
Definition gone_during_transfer : list (nat * act) :=
  let go i l := map (fun n => (i, Go n)) l in
  [(0, Take (MPeer 1 PSyn))] ++ go 0
    [0;0;0;0;0;0;0;0;0;0;0;0;1;0;0;0;0;1;0;0;0;0;0;0;0;0;0;0;0;0;0;0;0;0;0;0;0;0;0;0;0;0;0;0;0;0;0;0;0;0] ++
  [(0, Take (MPeer 1 (PData (ERequest RReplicate))))] ++ go 0
    [0;0;0;0;0;0;0;0;0;0;1;0;0;0;1;0;0;0;0;2;0;0;0;1;0;0;0;0;1;0;0;0;0;0;0;0;0;0;0;0;0;0;0;0;0;0;0;0;0;0;0;0;0;1;0;0;0;0] ++
  [(1, Take (MReset 1))] ++ go 1 (repeat 0 20) ++ go 0 [1;0;0;0;0;0;0;0;0;0;0;0;0] ++ go 1 [0] ++ go 0 [0].
Definition hangs (s : state) : bool :=
  match nth_error (threads s) 0 with Some (Lock LRaft _) => existsb (fun x => lock_eqb LRaft (fst x) && (snd x =? 0)) (held s) | _ => false end.
Theorem C80_no_deadlock_refuted :
  exists s, reachable 2 s /\ deadlock s [0] /\ holder s 0 LRaft /\
    (* and it stays so: that message is never done with, and no thread gets the lock *)
    forall es s', run s es = Some s' -> deadlock s' [0] /\ holder s' 0 LRaft.
Proof.
  assert (H : match run (start 2) gone_during_transfer with Some s => hangs s | None => false end = true) by (vm_compute; reflexivity).
  destruct (run (start 2) gone_during_transfer) as [s|] eqn:E; [|discriminate H].
  unfold hangs in H. destruct (nth_error (threads s) 0) as [p|] eqn:Hp; [|discriminate H].
  destruct p as [|l k| | | | ]; try discriminate H. destruct l; try discriminate H.
  apply existsb_exists in H as ([l i] & Hin & Hl). apply andb_prop in Hl as [Hl Hz]. apply lock_eqb_eq in Hl. apply Nat.eqb_eq in Hz. cbn in Hl, Hz. subst l i.
  assert (Hd : deadlock s [0]).
  { split; [discriminate|]. intros i [<-|[]]. exists LRaft, 0. split; [exists k; exact Hp|]. split; [exact Hin|left; reflexivity]. }
  exists s. split; [exists gone_during_transfer; exact E|]. split; [exact Hd|]. split; [exact Hin|].
  intros es s' Hr. assert (Hd' := deadlock_run _ _ _ _ Hd Hr). split; [exact Hd'|].
  (* the lock waited for is still that one *)
  clear E Hp. revert s s' Hd Hin Hr Hd'. induction es as [|e es IH]; cbn [run]; intros s s' Hd Hin Hr Hd'; [injection Hr as <-; exact Hin|].
  destruct (step s e) as [s1|] eqn:E; [|discriminate]. apply (IH s1 s'); [exact (deadlock_step s [0] e s1 Hd E)| |exact Hr|exact Hd'].
  destruct (deadlock_step s [0] e s1 Hd E) as [_ Hd1]. destruct Hd as [_ Hd].
  destruct e as [i a]. unfold step in E.
  destruct (Hd 0 (or_introl eq_refl)) as (l & j & [k0 Hk0] & Hh & _).
  destruct (Nat.eqb_spec i 0) as [->|Hi0].
  { rewrite Hk0 in E. destruct a; [discriminate|]. assert (Hheld : is_held l (held s) = true) by (apply is_held_in; eauto). rewrite Hheld in E. discriminate. }
  unfold holder in *. destruct (nth_error (threads s) i) as [p|]; [|discriminate].
  destruct p as [|l0 k1|l0 k1|k1|A f k1|push k1], a as [m|n]; try discriminate.
  - injection E as <-. exact Hin.
  - destruct (is_held l0 (held s)); [discriminate|]. injection E as <-. right. exact Hin.
  - injection E as <-. apply filter_In. split; [exact Hin|]. cbn [fst snd]. destruct (Nat.eqb_spec i 0); [congruence|]. rewrite andb_false_r. reflexivity.
  - injection E as <-. exact Hin.
  - destruct (f (d s)) as [d' a]. injection E as <-. exact Hin.
  - destruct (tell push (d s)) as [d' a]. injection E as <-. exact Hin.
Qed.
Print Assumptions C80_no_deadlock_refuted.

(* Two threads: while one sends the state to a peer, holding raft_.mu, the other waits for it. *)
Definition waits : list (nat * act) :=
  firstn 110 gone_during_transfer ++ [(1, Take MHashes); (1, Go 0); (1, Go 0); (1, Go 0)].
Definition waiting (s : state) : bool :=
  match nth_error (threads s) 1 with Some (Lock LRaft _) => existsb (fun x => lock_eqb LRaft (fst x) && (snd x =? 0)) (held s) && negb (raced s) | _ => false end.
Example C80_example_waiting : match run (start 2) waits with Some s => waiting s | None => false end = true.
Proof. vm_compute. reflexivity. Qed.
(* A message from taking it to the end. *)
Example C80_example_finished :
  match run (start 2) ((1, Take MHashes) :: repeat (1, Go 0) 10) with
  | Some s => match threads s, held s with [Done; Done], [] => negb (raced s) | _, _ => false end
  | None => false
  end = true.
Proof. vm_compute. reflexivity. Qed.
