(* C84: the host and its enclave do not block each other for ever - as long as no queue of
   messages to another replica overflows while the channel of outputs fills up. *)
From Verif Require Import HostFlow HostFlowSpec HostFlowProofs.

(* C84_never_stuck_partial.  Whatever happens, and in whatever order: if everybody in the host
   waits and none can go on, then the channel of outputs is full, a call in the enclave has
   more to put out, and the only goroutine that takes outputs out is telling the enclave to
   reset a replica, or waits for one that does.  Missing: that this never happens; see the
   refutation. *)
Theorem C84_never_stuck_partial : forall cap n s, 0 < cap -> 0 < n -> reachable cap n s -> stuck cap s ->
  length (chan s) = cap /\ resetting s /\ unfinished s.
Proof.
  intros cap n s C N R X. destruct (stuck_because cap n s C N (inv_reach _ _ _ R) X) as (F & T & U). split; [|auto].
  destruct R as (es & R). pose proof (chan_run cap es (host0 n) s (Nat.le_0_l cap) R). lia.
Qed.
Print Assumptions C84_never_stuck_partial.

(* ... hence not as long as all that calls have put out and will put out fits into the channel ... *)
Theorem C84_never_stuck_if_it_fits : forall cap n s, 0 < cap -> 0 < n -> reachable cap n s -> length (chan s) + todo s <= cap -> ~ stuck cap s.
Proof.
  intros cap n s C N R T X. destruct (C84_never_stuck_partial cap n s C N R X) as (F & _ & U). apply unfinished_todo in U. lia.
Qed.
Print Assumptions C84_never_stuck_if_it_fits.

(* ... and not in a history in which every replica keeps up, however much calls put out. *)
Theorem C84_never_stuck_if_replicas_keep_up : forall cap n es s, 0 < cap -> 0 < n ->
  Forall keeps_up es -> run cap (host0 n) es = Some s -> ~ stuck cap s.
Proof.
  intros cap n es s C N F R X. destruct (C84_never_stuck_partial cap n s C N (ex_intro _ es R) X) as (_ & T & _).
  revert T. apply calm_not_resetting. eapply calm_run; [exact F|apply calm0|exact R].
Qed.
Print Assumptions C84_never_stuck_if_replicas_keep_up.

(* C84_never_stuck_refuted.  With a channel of 100 and any number of workers, a queue to a slow
   replica overflows while every worker makes a call: the goroutine that takes outputs out
   waits for a worker, each worker waits for that goroutine, and nothing that can happen
   afterwards takes another output out. *)
Definition jam (n : nat) : list event :=
  [ETick [ToPeer]; ETickOut; ETickDone; EMsg; ELock Full] ++
  concat (map (fun k => [EOther; ETake k ByOther (repeat ToHost 101)]) (seq 0 n)) ++
  repeat (EOut 0) 100.
Definition jammed (n : nat) : host :=
  Host (repeat ToHost 100) (match n with 0 => [] | S m => Some (ByOther, [ToHost]) :: repeat (Some (ByOther, repeat ToHost 101)) m end)
    None (LReset false) [] None 0.

Lemma run_app cap a : forall s b, run cap s (a ++ b) = match run cap s a with Some s' => run cap s' b | None => None end.
Proof. induction a as [|e a IH]; cbn; intros s b; [reflexivity|]. destruct (step cap s e); [apply IH|reflexivity]. Qed.
Lemma set_nth_mid {A} (x y : A) a b : set_nth (length a) x (a ++ y :: b) = a ++ x :: b.
Proof. induction a as [|z a IH]; cbn; [reflexivity|now rewrite IH]. Qed.
Lemma take_all cap outs m : forall a, run cap (Host [] (a ++ repeat None m) None (LReset false) [] None 0)
    (concat (map (fun k => [EOther; ETake k ByOther outs]) (seq (length a) m)))
  = Some (Host [] (a ++ repeat (Some (ByOther, outs)) m) None (LReset false) [] None 0).
Proof.
  induction m as [|m IH]; intros a; [reflexivity|]. cbn [seq map concat app run step repeat workers others chan loop gone mu tick].
  rewrite nth_error_app2, Nat.sub_diag by lia. cbn [nth_error set_worker workers others chan loop gone mu tick]. rewrite set_nth_mid.
  specialize (IH (a ++ [Some (ByOther, outs)])). rewrite app_length, Nat.add_1_r, <- !app_assoc in IH. exact IH.
Qed.
Lemma put_all cap ws q : forall m c, length c + q <= cap -> q <= m ->
  run cap (Host c (Some (ByOther, repeat ToHost m) :: ws) None (LReset false) [] None 0) (repeat (EOut 0) q)
  = Some (Host (c ++ repeat ToHost q) (Some (ByOther, repeat ToHost (m - q)) :: ws) None (LReset false) [] None 0).
Proof.
  induction q as [|q IH]; intros m c C M; [cbn; now rewrite app_nil_r, Nat.sub_0_r|]. destruct m as [|m]; [lia|].
  cbn [repeat run step workers chan nth_error tick loop gone mu others set_nth]. destruct (Nat.ltb_spec (length c) cap) as [_|]; [|lia].
  rewrite IH by (rewrite ?app_length; cbn; lia). rewrite <- app_assoc. reflexivity.
Qed.
Lemma jam_run n : 0 < n -> run 100 (host0 n) (jam n) = Some (jammed n).
Proof.
  intros N. unfold jam. rewrite run_app.
  replace (run 100 (host0 n) [ETick [ToPeer]; ETickOut; ETickDone; EMsg; ELock Full]) with (Some (Host [] (repeat None n) None (LReset false) [] None 0)) by reflexivity.
  rewrite run_app. pose proof (take_all 100 (repeat ToHost 101) n []) as T. cbn [length app] in T. rewrite T.
  destruct n as [|m]; [lia|]. cbn [repeat app]. exact (put_all 100 (repeat (Some (ByOther, repeat ToHost 101)) m) 100 101 [] (le_n 100) (le_S _ _ (le_n 100))).
Qed.
Theorem C84_never_stuck_refuted : forall n, 0 < n -> exists s, reachable 100 n s /\ stuck 100 s /\
  forall es s', run 100 s es = Some s' -> chan s' = chan s /\ workers s' = workers s /\ loop s' = loop s.
Proof.
  intros n N. exists (jammed n).
  assert (D : dead 100 (jammed n)).
  { split; [cbn; lia|]. split; [now exists false|]. intros k x K. destruct n as [|m]; [lia|]. cbn [jammed workers] in K.
    destruct k as [|k]; [injection K as <-; now exists ByOther, ToHost, []|]. cbn [nth_error] in K. apply nth_error_In, repeat_spec in K as ->.
    exists ByOther, ToHost, (repeat ToHost 100). reflexivity. }
  split; [exists (jam n); now apply jam_run|]. split.
  - split; [intros (Cn & _); discriminate Cn|]. intros e I. destruct (step 100 (jammed n) e) as [s'|] eqn:E; [|reflexivity]. exfalso.
    destruct D as (F & _ & W). destruct e; try discriminate I; cbn [step] in E.
    + destruct (nth_error (workers (jammed n)) k) as [x|] eqn:K; [|discriminate E]. destruct (W _ _ K) as (w & o & r & ->). discriminate E.
    + discriminate E.
    + destruct (nth_error (workers (jammed n)) k) as [x|] eqn:K; [|discriminate E]. destruct (W _ _ K) as (w & o & r & ->). discriminate E.
    + discriminate E.
    + destruct (nth_error (workers (jammed n)) k) as [x|] eqn:K; [|discriminate E]. destruct (W _ _ K) as (w' & o & r & ->). discriminate E.
    + discriminate E.
    + discriminate E.
    + destruct i; discriminate E.
  - intros es s' R. destruct (dead_run _ _ _ _ D R) as (_ & A & B & C). auto.
Qed.
Print Assumptions C84_never_stuck_refuted.

(* a replica's queue overflows, it is reset, and the host comes to rest again *)
Example reset_and_rest : exists s, at_rest s /\ run 100 (host0 2)
  [EOther; ETake 1 ByOther [ToPeer; ToHost]; EOut 1; EMsg; ELock Full; ETake 0 ByLoop [ToPeer]; EOut 1; EDone 1; EOut 0; EDone 0; EMsg; EMsg; ELock NewSender] = Some s.
Proof. eexists. split; [|vm_compute; reflexivity]. repeat split; cbn; repeat constructor. Qed.
Example keeps_up_run : exists s, run 2 (host0 1) [EOther; ETake 0 ByOther [ToPeer; ToHost; ToHost]; EOut 0; EOut 0; EMsg; ELock NewSender; EOut 0; EDone 0] = Some s /\
  length (chan s) = 2 /\ Forall keeps_up [EOther; ETake 0 ByOther [ToPeer; ToHost; ToHost]; EOut 0; EOut 0; EMsg; ELock NewSender; EOut 0; EDone 0].
Proof. eexists. split; [vm_compute; reflexivity|]. split; [reflexivity|]. repeat constructor. Qed.
