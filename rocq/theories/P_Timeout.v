(* C34: timeouts.  Vocabulary: TimeoutSpec.v.  h0 is any history, in which the
   timeout is set next; h1 are the calls up to the tick at which it is due, h2
   those after.  The results rs0, rs1, rs2 are those of h0, h1 and of the tick and
   h2.  Histories that overflow the 64-bit tick counter crash. *)
From Verif Require Import Timeout TimeoutSpec TimeoutProofs Hist.
Open Scope Z_scope.

(* It does not run before the due tick, and if it is not cancelled before, then
   from that tick on it runs once, with no other function, or is the next thing
   the tick still has to do. *)
Theorem C34_runs_once_when_due :
  forall F h0 d (f : F) h1 h2 s rs0 a id rs1 rs2, due d = ticks_in h1 + 1 ->
  exec tstep no_timeouts (h0 ++ TSet d f :: h1 ++ TTick :: h2) = Ret (s, rs0 ++ RSet a id :: rs1 ++ rs2) ->
  length rs0 = length h0 -> length rs1 = length h1 -> ~ In (TCancel a id) h1 ->
  runs id rs0 = [] /\ runs id rs1 = [] /\
  (runs id rs2 = [f] \/ (runs id rs2 = [] /\ In (id, f) (t_running s))).
Proof.
  intros F h0 d f h1 h2 s rs0 a id rs1 rs2 Hd E L0 L1 Hn.
  destruct (timeout_life h0 d f h1 h2 s rs0 a id rs1 rs2 Hd E L0 L1) as [H1 [H2 [_ H3]]]. auto.
Qed.
(* once the tick has run everything it took out, the function has been called *)
Theorem C34_has_run_after_its_tick :
  forall F h0 d (f : F) h1 h2 s rs0 a id rs1 rs2, due d = ticks_in h1 + 1 ->
  exec tstep no_timeouts (h0 ++ TSet d f :: h1 ++ TTick :: h2) = Ret (s, rs0 ++ RSet a id :: rs1 ++ rs2) ->
  length rs0 = length h0 -> length rs1 = length h1 -> ~ In (TCancel a id) h1 -> t_running s = [] ->
  runs id rs2 = [f].
Proof.
  intros F h0 d f h1 h2 s rs0 a id rs1 rs2 Hd E L0 L1 Hn Hr.
  destruct (C34_runs_once_when_due F h0 d f h1 h2 s rs0 a id rs1 rs2 Hd E L0 L1 Hn) as [_ [_ [H|[_ H]]]]; [assumption|].
  rewrite Hr in H. contradiction.
Qed.
Theorem C34_never_early :
  forall F h0 d (f : F) h1 s rs0 a id rs1, ticks_in h1 < due d ->
  exec tstep no_timeouts (h0 ++ TSet d f :: h1) = Ret (s, rs0 ++ RSet a id :: rs1) -> length rs0 = length h0 ->
  runs id rs1 = [].
Proof. intros F; exact timeout_early. Qed.
(* Cancelled before its tick it never runs, however long one waits. *)
Theorem C34_cancelled_never_runs :
  forall F h0 d (f : F) h1 h2 s rs0 a id rs1 rs2, due d = ticks_in h1 + 1 ->
  exec tstep no_timeouts (h0 ++ TSet d f :: h1 ++ TTick :: h2) = Ret (s, rs0 ++ RSet a id :: rs1 ++ rs2) ->
  length rs0 = length h0 -> length rs1 = length h1 -> In (TCancel a id) h1 ->
  runs id rs0 = [] /\ runs id rs1 = [] /\ runs id rs2 = [].
Proof.
  intros F h0 d f h1 h2 s rs0 a id rs1 rs2 Hd E L0 L1 Hn.
  destruct (timeout_life h0 d f h1 h2 s rs0 a id rs1 rs2 Hd E L0 L1) as [H1 [H2 [H3 _]]]. auto.
Qed.

(* two for the same tick, the first of them cancelled, and one with d = 0;
   the callback of the second sets another one while the tick runs *)
Definition x_tops : list (top N) :=
  [TTick; TSet 2 7%N; TSet 2 8%N; TSet 0 9%N; TTick; TRun 0; TCancel 3 1; TTick; TSet (-5) 10%N; TRun 0; TTick; TRun 0].
Example x_timeouts : exists s, exec tstep no_timeouts x_tops =
  Ret (s, [RNothing; RSet 3 1; RSet 3 2; RSet 2 3; RNothing; RRan 3 9%N; RNothing; RNothing; RSet 4 4; RRan 2 8%N; RNothing; RRan 4 10%N]) /\
  t_running s = [] /\ due 2 = ticks_in [TSet 0 9%N; TTick; TRun 0; TCancel 3 1] + 1.
Proof. eexists. split; [vm_compute; reflexivity|]. split; vm_compute; reflexivity. Qed.
(* a cancellation that comes after the tick has taken the function out is too late *)
Example x_too_late : exists s, exec tstep no_timeouts [TSet 1 7%N; TTick; TCancel 1 1; TRun 0] =
  Ret (s, [RSet 1 1; RNothing; RNothing; RRan 1 7%N]).
Proof. eexists. vm_compute. reflexivity. Qed.

(* nothing overflows for as long as the ticks and the delays asked for stay below 2^62 *)
Theorem C34_never_overflows :
  forall F (h : list (top F)), ticks_in h < 2 ^ 62 -> (forall d f, In (TSet d f) h -> d < 2 ^ 62) ->
  exists s rs, exec tstep no_timeouts h = Ret (s, rs).
Proof.
  intros F h. assert (G : forall s : timeouts F, 0 <= t_ticks s -> t_ticks s + ticks_in h < 2 ^ 62 -> (forall d f, In (TSet d f) h -> d < 2 ^ 62) ->
    exists s' rs, exec tstep s h = Ret (s', rs)).
  2:{ intros H1 H2. apply G; cbn [no_timeouts t_ticks]; lia || assumption. }
  induction h as [|o h IH]; intros s H0 Ht Hd; [cbn; eauto|].
  pose proof (ticks_in_cons o h) as Ec. pose proof (ticks_in_nonneg h) as Hn. pose proof (ticks_in_nonneg [o]) as Hn1.
  assert (exists s1 r, tstep s o = Ret (s1, r)) as (s1 & r & E).
  { destruct o as [d f|a i| |k]; cbn [tstep].
    - assert (d < 2 ^ 62) by (apply (Hd d f); left; reflexivity). unfold set_timeout, INT64_MAX.
      destruct (Z.ltb_spec (2 ^ 63 - 1) (d + t_ticks s)); [lia|].
      destruct (Z.leb_spec (d + t_ticks s) (t_ticks s)).
      + destruct (Z.ltb_spec (2 ^ 63 - 1) (1 + t_ticks s)); [lia|eauto].
      + destruct (Z.ltb_spec (2 ^ 63 - 1) (d + t_ticks s)); [lia|eauto].
    - eauto.
    - unfold timer_tick, INT64_MAX. destruct (Z.leb_spec (2 ^ 63 - 1) (t_ticks s)); [lia|eauto].
    - destruct (run_one k s); eauto. }
  destruct (ticks_step s o s1 r E) as [Et _].
  destruct (IH s1) as (s2 & rs & E2); [lia|lia|intros d f Hin; apply (Hd d f); now right|].
  exists s2, (r :: rs). cbn [exec]. now rewrite E, E2.
Qed.

Print Assumptions C34_runs_once_when_due.
Print Assumptions C34_has_run_after_its_tick.
Print Assumptions C34_never_early.
Print Assumptions C34_cancelled_never_runs.
Print Assumptions C34_never_overflows.
