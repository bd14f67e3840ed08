(* C101: the operator's tool says "success" exactly if the enclave did what was
   asked, and prints what the enclave said. *)
From Verif Require Import Base Control.
From Coq Require Import Permutation.
Open Scope N_scope.

(* The enclave got the request and answered it with something other than an
   error: [e'] is what it is then. *)
Definition done {E} (send : E -> request -> E * option answer) (e : E) (q : request) (e' : E) (a : answer) : Prop :=
  send e q = (e', Some a) /\ forall c, a = AStatus c -> c = 0.

Lemma response_err_spec a : response_err a = false <-> forall c, a = AStatus c -> c = 0.
Proof.
  destruct a; cbn; split; intros; try reflexivity; try discriminate.
  - inversion H0; subst. destruct (N.eqb_spec c 0); [assumption|discriminate].
  - rewrite (H e eq_refl). reflexivity.
Qed.

(* What the client gets is what the enclave answered, if that is not an error. *)
Theorem C101_answer_is_the_enclaves {E} (send : E -> request -> E * option answer) f e q e' a :
  do send f e q = (e', Some a) <-> f = Arrives /\ done send e q e' a.
Proof.
  unfold do, control, done. destruct f.
  - destruct (send e q) as [e1 [a1|]].
    + destruct (response_err a1) eqn:R; cbn.
      * split; [intros H; discriminate H|]. intros (_ & H1 & H). injection H1 as <- <-. apply response_err_spec in H. congruence.
      * rewrite R. split.
        -- intros H. injection H as <- <-. split; [reflexivity|]. split; [reflexivity|]. now apply response_err_spec.
        -- intros (_ & H & _). injection H as <- <-. reflexivity.
    + cbn. split; [intros H; discriminate H|intros (_ & H & _); discriminate H].
  - split; [intros H; discriminate H|intros [H _]; discriminate H].
  - split; [intros H; discriminate H|intros [H _]; discriminate H].
Qed.
(* And the enclave is asked at most once, whatever the network does. *)
Theorem C101_asked_at_most_once {E} (send : E -> request -> E * option answer) f e q :
  fst (do send f e q) = match f with RequestLost => e | _ => fst (send e q) end.
Proof.
  unfold do, control. destruct f; try reflexivity;
  destruct (send e q) as [e1 [a1|]]; cbn; try reflexivity; destruct (response_err a1) eqn:R; cbn; try rewrite R; reflexivity.
Qed.

Lemma one_spec {E} (send : E -> request -> E * option answer) f e q e' :
  one send f e q = (e', Success) <-> f = Arrives /\ exists a, done send e q e' a.
Proof.
  unfold one. destruct (do send f e q) as [e1 [a|]] eqn:D; cbn.
  - split.
    + intros [= <-]. apply C101_answer_is_the_enclaves in D as [F D]. eauto.
    + intros (F & a' & H). assert (D' : do send f e q = (e', Some a')) by (apply C101_answer_is_the_enclaves; auto). congruence.
  - split; [intros [=]|]. intros (F & a' & H).
    assert (D' : do send f e q = (e', Some a')) by (apply C101_answer_is_the_enclaves; auto). congruence.
Qed.

(* The commands that ask for one thing: success exactly if that very thing was
   asked of the enclave and done. *)
Inductive command := Relinquish | ResetPeer (i : id) | ConnectPeer (i : id) | SetLevel (l : option N)
                   | UpdateMinimum (key : bytes) (value : option bytes).
Definition run {E} (send : E -> request -> E * option answer) (c : command) : fate -> E -> E * ending :=
  match c with
  | Relinquish => relinquish send | ResetPeer i => reset_peer send i | ConnectPeer i => connect_peer send i
  | SetLevel l => set_level send l | UpdateMinimum k v => update_minimum send k v
  end.
(* What a command means; None: it has no meaning (no peer, no level, no key, no value). *)
Definition meaning (c : command) : option request :=
  match c with
  | Relinquish => Some QRelinquish
  | ResetPeer i => if list_eq_dec N.eq_dec i (repeat 0 32) then None else Some (QReset i)
  | ConnectPeer i => if list_eq_dec N.eq_dec i (repeat 0 32) then None else Some (QConnect i)
  | SetLevel l => match l with Some l => Some (QLevel l) | None => None end
  | UpdateMinimum k v => match k, v with _ :: _, Some v => Some (QMinimum k v) | _, _ => None end
  end.
Lemma run_meaning {E} (send : E -> request -> E * option answer) c f e :
  run send c f e = match meaning c with Some q => one send f e q | None => (e, Failed) end.
Proof.
  destruct c as [|i|i|[l|]|[|k ks] [v|]]; try reflexivity; cbn [run meaning];
  [unfold reset_peer|unfold connect_peer]; unfold is_zero, zero_id; now destruct list_eq_dec.
Qed.
Theorem C101_success_means_done_partial {E} (send : E -> request -> E * option answer) c f e e' :
  run send c f e = (e', Success) <->
  exists q a, meaning c = Some q /\ f = Arrives /\ done send e q e' a.
Proof.
  rewrite run_meaning. destruct (meaning c) as [q|].
  - rewrite one_spec. split; [intros (F & a & D); exists q, a; auto|intros (q' & a & [= ->] & F & D); eauto].
  - split; [intros [=]|intros (q & a & [=] & _)].
Qed.
(* A command without a meaning asks the enclave nothing and fails. *)
Theorem C101_nonsense_is_not_sent {E} (send : E -> request -> E * option answer) c f e :
  meaning c = None -> run send c f e = (e, Failed).
Proof. intros H. rewrite run_meaning, H. reflexivity. Qed.

(* pingPeer prints of each ping whether it worked, *)
Theorem C101_pings_are_reported_partial {E} (send : E -> request -> E * option answer) i : forall fs e,
  length (snd (pings send i fs e)) = length fs /\
  forall k, nth_error (snd (pings send i fs e)) k = Some false <->
    nth_error fs k = Some Arrives /\
    (* asked in the state that the pings before it left *)
    exists e2 a, done send (fst (pings send i (firstn k fs) e)) (QPing i) e2 a.
Proof.
  induction fs as [|f fs IH]; intros e.
  { split; [reflexivity|]. intros [|k]; cbn; (split; [intros H; discriminate H|intros [H _]; discriminate H]). }
  cbn [pings]. destruct (do send f e (QPing i)) as [e1 a] eqn:D. specialize (IH e1).
  destruct (pings send i fs e1) as [e2 l]. cbn [snd] in *. destruct IH as [L IH]. split; [cbn; lia|].
  intros [|k].
  - cbn [nth_error firstn pings fst]. split.
    + intros H. destruct a as [a|]; [|discriminate]. apply C101_answer_is_the_enclaves in D as [-> D]. eauto.
    + intros (F & e3 & a3 & Dn). injection F as ->.
      assert (D' : do send Arrives e (QPing i) = (e3, Some a3)) by (apply C101_answer_is_the_enclaves; auto).
      rewrite D in D'. injection D' as -> ->. reflexivity.
  - cbn [nth_error firstn pings]. rewrite D. rewrite (IH k).
    destruct (pings send i (firstn k fs) e1) as [e3 l3]. reflexivity.
Qed.
(* but ends with success if not a single one did. *)
Theorem C101_failed_pings_succeed_refuted {E} (send : E -> request -> E * option answer) i n e :
  i <> zero_id -> (forall e, send e (QPing i) = (e, Some (AStatus 1))) ->
  ping_peer send i (repeat Arrives n) e = (e, Success, repeat true n).
Proof.
  intros Z H. unfold ping_peer, is_zero. destruct list_eq_dec as [|_]; [contradiction|].
  assert (P : pings send i (repeat Arrives n) e = (e, repeat true n)).
  { induction n as [|n IH]; [reflexivity|]. cbn [repeat pings]. unfold do, control. rewrite H. cbn. rewrite IH. reflexivity. }
  rewrite P. reflexivity.
Qed.

(* metrics, if it succeeds: the COUNT lines are the enclave's counters, no more
   and no fewer; *)
Definition counts (ls : list line) : list metric :=
  flat_map (fun l => match l with (COUNT, m) => [m] | _ => [] end) ls.
Definition gauges_of (ls : list line) : list metric :=
  flat_map (fun l => match l with (GAUGE, m) => [m] | _ => [] end) ls.
Lemma counts_map k cs : counts (map (pair k) cs) = match k with COUNT => cs | GAUGE => [] end /\
  gauges_of (map (pair k) cs) = match k with GAUGE => cs | COUNT => [] end.
Proof.
  unfold counts, gauges_of. induction cs as [|c cs [IH1 IH2]]; destruct k; cbn [map flat_map app]; (split; [|]);
  rewrite ?IH1, ?IH2; reflexivity.
Qed.

Theorem C101_counters_are_the_enclaves_partial {E} (send : E -> request -> E * option answer) sorted u f e e' out :
  (forall l, Permutation (sorted l) l) ->
  metrics send sorted u f e = (e', Success, out) ->
  exists cs gs, f = Arrives /\ done send e (QMetrics u) e' (AMetrics cs gs) /\ Permutation (counts out) cs.
Proof.
  intros S H. unfold metrics in H. destruct (do send f e (QMetrics u)) as [e1 [a|]] eqn:D; [|discriminate].
  apply C101_answer_is_the_enclaves in D as [F D]. destruct a as [| cs gs | | |]; inversion H; subst.
  exists cs, gs. split; [reflexivity|]. split; [assumption|].
  unfold counts. eapply Permutation_trans; [apply Permutation_flat_map, S|].
  rewrite flat_map_app. destruct (counts_map COUNT cs) as [A _]. destruct (counts_map GAUGE cs) as [B _].
  unfold counts in A, B. rewrite A, B, app_nil_r. apply Permutation_refl.
Qed.
(* but the GAUGE lines are the counters once more, whatever the gauges are, *)
Theorem C101_gauges_are_counters_refuted {E} (send : E -> request -> E * option answer) sorted u e e' cs gs :
  (forall l, Permutation (sorted l) l) ->
  send e (QMetrics u) = (e', Some (AMetrics cs gs)) ->
  exists out, metrics send sorted u Arrives e = (e', Success, out) /\ Permutation (gauges_of out) cs /\
    forall g, ~ In g cs -> ~ In (GAUGE, g) out.
Proof.
  intros S H. unfold metrics.
  assert (D : do send Arrives e (QMetrics u) = (e', Some (AMetrics cs gs))).
  { apply C101_answer_is_the_enclaves. split; [reflexivity|]. split; [exact H|discriminate]. }
  rewrite D. eexists. split; [reflexivity|]. split.
  - unfold gauges_of. eapply Permutation_trans; [apply Permutation_flat_map, S|].
    rewrite flat_map_app. destruct (counts_map COUNT cs) as [_ A]. destruct (counts_map GAUGE cs) as [_ B].
    unfold gauges_of in A, B. rewrite A, B. apply Permutation_refl.
  - intros g N I. apply (Permutation_in _ (S _)) in I. apply in_app_or in I as [I|I];
    apply in_map_iff in I as (x & [= ->] & I); contradiction.
Qed.
(* so a gauge of the enclave is not shown at all. *)
Example C101_gauge_lost : exists (send : unit -> request -> unit * option answer) out,
  let c : metric := ([1], [], 5) in let g : metric := ([2], [], 7) in
  send tt (QMetrics false) = (tt, Some (AMetrics [c] [g])) /\
  metrics send (fun l => l) false Arrives tt = (tt, Success, out) /\ ~ In (GAUGE, g) out /\ In (GAUGE, c) out.
Proof.
  exists (fun s _ => (s, Some (AMetrics [([1], [], 5)] [([2], [], 7)]))). eexists. cbn zeta.
  split; [reflexivity|]. split; [reflexivity|]. split; [|right; left; reflexivity].
  intros [H|[H|[]]]; discriminate.
Qed.

(* status stops with a panic exactly if the answer is no error and no status;
   eventLog writes exactly the log it was given. *)
Theorem C101_status_panics {E} (send : E -> request -> E * option answer) f e e' :
  status send f e = (e', Panic) <->
  exists a, f = Arrives /\ done send e QStatus e' a /\ a <> AEnclaveStatus.
Proof.
  unfold status. destruct (do send f e QStatus) as [e1 r] eqn:D. split.
  - intros H. destruct r as [a|]; [|discriminate]. apply C101_answer_is_the_enclaves in D as [-> D].
    exists a. destruct a; inversion H; subst; (split; [reflexivity|]; split; [assumption|discriminate]).
  - intros (a & F & Dn & N). assert (D' : do send f e QStatus = (e', Some a)) by (apply C101_answer_is_the_enclaves; auto).
    rewrite D in D'. injection D' as -> ->. destruct a; try reflexivity. contradiction.
Qed.
Theorem C101_event_log_is_the_enclaves {E} (send : E -> request -> E * option answer) disk f e e' r :
  event_log send disk f e = (e', Success, r) <->
  disk = true /\ exists log, f = Arrives /\ done send e QEventLog e' (AEventLog log) /\ r = Some log.
Proof.
  unfold event_log. destruct (do send f e QEventLog) as [e1 a] eqn:D. split.
  - intros H. destruct a as [[| | | log |]|]; try discriminate. destruct disk; [|discriminate]. inversion H; subst.
    apply C101_answer_is_the_enclaves in D as [F D]. eauto 6.
  - intros (-> & log & F & Dn & ->).
    assert (D' : do send f e QEventLog = (e', Some (AEventLog log))) by (apply C101_answer_is_the_enclaves; auto).
    rewrite D in D'. injection D' as -> ->. reflexivity.
Qed.

(* A host whose state is what it was asked: the hypotheses are met. *)
Definition recorder (e : list request) (q : request) : list request * option answer :=
  (e ++ [q], Some (match q with QEventLog => AEventLog [7] | QPing _ => AStatus 3 | _ => AStatus 0 end)).
Example C101_meets :
  run recorder (ResetPeer (repeat 1 32)) Arrives [] = ([QReset (repeat 1 32)], Success) /\
  run recorder (ResetPeer (repeat 0 32)) Arrives [] = ([], Failed) /\
  run recorder (SetLevel (Some 0)) AnswerLost [] = ([QLevel 0], Failed) /\
  run recorder (UpdateMinimum [1] (Some [2])) RequestLost [] = ([], Failed) /\
  event_log recorder true Arrives [] = ([QEventLog], Success, Some [7]) /\
  status recorder Arrives [] = ([QStatus], Panic) /\
  snd (ping_peer recorder (repeat 1 32) [Arrives; RequestLost] []) = [true; true].
Proof. vm_compute. tauto. Qed.
Example C101_refusing : exists send : unit -> request -> unit * option answer, forall i, i <> zero_id ->
  ping_peer send i (repeat Arrives 3) tt = (tt, Success, [true; true; true]).
Proof.
  exists (fun s _ => (s, Some (AStatus 1))). intros i H.
  apply (C101_failed_pings_succeed_refuted (fun s _ => (s, Some (AStatus 1))) i 3 tt H). intros []. reflexivity.
Qed.

Print Assumptions C101_answer_is_the_enclaves.
Print Assumptions C101_asked_at_most_once.
Print Assumptions C101_success_means_done_partial.
Print Assumptions C101_nonsense_is_not_sent.
Print Assumptions C101_pings_are_reported_partial.
Print Assumptions C101_failed_pings_succeed_refuted.
Print Assumptions C101_counters_are_the_enclaves_partial.
Print Assumptions C101_gauges_are_counters_refuted.
Print Assumptions C101_status_panics.
Print Assumptions C101_event_log_is_the_enclaves.
