(* C92: the time the enclave spends is counted once, by what it is spent on. *)
From Verif Require Import Base Cpu CpuSpec CpuProofs.
Open Scope N_scope.

(* Whatever sections the threads' contexts enter and leave, in whatever order:
   after each event a counter holds the sum, over all contexts, of the time in
   which its section was the innermost open one (as far as 64 bits go). *)
Theorem C92_counted_by_innermost ids tr c :
  NoDup ids -> (forall x, In x tr -> In (fst x) ids) ->
  (forall i, onward 0 (of_ i tr)) ->
  s_counters (run tr) c = sum (map (fun i => spent c [] 0 (of_ i tr)) ids) mod 2 ^ 64.
Proof.
  intros Hn Hi Ho. destruct (run_holds ids Hn tr Hi Ho) as [_ H].
  specialize (H c). rewrite (N.mod_small (s_counters _ _)) in H by apply run_small. exact H.
Qed.

(* And none is lost or counted twice: the counters of the sections of one
   context add up to the time from its beginning to its last event. *)
Theorem C92_all_time_is_counted i top t evs cs :
  NoDup cs -> onward t evs -> in_use cs [Some top] evs ->
  last_time t evs - t < 2 ^ 64 ->
  sum (map (s_counters (run (map (pair i) (Enter (Some top) t :: evs)))) cs) = last_time t evs - t.
Proof.
  intros Hn Ho Hu Hs. set (tr := map (pair i) (Enter (Some top) t :: evs)).
  assert (O : forall j, of_ j tr = if i =? j then Enter (Some top) t :: evs else []).
  { intros j. unfold tr, of_. generalize (Enter (Some top) t :: evs) as l.
    induction l as [|a l IH]; cbn; [now destruct (i =? j)|].
    destruct (i =? j) eqn:E; [cbn; rewrite IH; reflexivity|exact IH]. }
  assert (W : forall c, s_counters (run tr) c = spent c [Some top] t evs mod 2 ^ 64).
  { intros c. rewrite (C92_counted_by_innermost [i]).
    - cbn [map sum fold_right]. rewrite O, N.eqb_refl, N.add_0_r. reflexivity.
    - constructor; [easy|constructor].
    - intros x Hx. unfold tr in Hx. apply in_map_iff in Hx as [e [<- _]]. now left.
    - intros j. rewrite O. destruct (i =? j); cbn; auto. split; [lia|exact Ho]. }
  pose proof (spent_total cs Hn evs [Some top] t Ho Hu) as T.
  rewrite <- T in Hs |- *. clear T.
  rewrite (map_ext _ _ W). revert Hs. generalize cs. generalize (2 ^ 64). clear.
  intros M l. induction l as [|a l IH]; [reflexivity|]. cbn [map sum fold_right] in *. unfold sum in *.
  intros H. rewrite IH by lia. rewrite N.mod_small by lia. reflexivity.
Qed.

(* Hypotheses are met: two threads, one with a section in a section; the clock
   passes 2^64 meanwhile. *)
Definition x_t : N := 2 ^ 64 - 10.
Definition x_tr : list (N * event) :=
  [(1, Enter (Some 0) x_t); (2, Enter (Some 0) (x_t + 1)); (1, Enter (Some 5) (x_t + 4));
   (2, Enter (Some 5) (x_t + 5)); (1, Enter (Some 6) (x_t + 9)); (1, Leave (x_t + 29));
   (2, Leave (x_t + 30)); (1, Leave (x_t + 31)); (2, Leave (x_t + 33)); (1, Leave (x_t + 38))].
Example C92_meets :
  map (s_counters (run x_tr)) [0; 5; 6] =
    [4 + 7 + 4 + 3; 5 + 2 + 25; 20] /\
  (forall x, In x x_tr -> In (fst x) [1; 2]) /\
  onward 0 (of_ 1 x_tr) /\ onward 0 (of_ 2 x_tr).
Proof.
  split; [vm_compute; reflexivity|]. split.
  - intros x H. repeat (destruct H as [<-|H]; [cbn; tauto|]). destruct H.
  - split; cbn; repeat split; vm_compute; discriminate.
Qed.
Example C92_meets_total :
  in_use [0; 5; 6] [Some 0] [Enter (Some 5) 4; Enter (Some 6) 9; Leave 29; Leave 31; Leave 38] /\
  onward 1 [Enter (Some 5) 4; Enter (Some 6) 9; Leave 29; Leave 31; Leave 38].
Proof. split; cbn; repeat split; auto; vm_compute; discriminate. Qed.

Print Assumptions C92_counted_by_innermost.
Print Assumptions C92_all_time_is_counted.
