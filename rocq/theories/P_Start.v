(* C86: an enclave is started at most once, completely, before it is given messages. *)
From Verif Require Import Start StartSpec StartProofs.

(* C86_one_core.  Whatever calls the host makes at the same time: at most one svr2_init
   succeeds; the peer id it returns is that of the enclave's core, and every message that is
   received is received by that core, in an environment that is simulated if and only if the
   core's configuration says so. *)
Theorem C86_one_core : forall s, reachable s ->
  (forall i j p q, answered s i (InitOK p) -> answered s j (InitOK q) -> i = j) /\
  (forall i pid, answered s i (InitOK pid) -> exists c, cr s = Some (c, pid)) /\
  (forall i k e, answered s i (Received k e) -> exists c pid j, k = Some (c, pid) /\ e = Some (c_sim c) /\ answered s j (InitOK pid)).
Proof.
  intros s R. pose proof (inv_reach s R) as I. split; [exact (i_ok1 s I)|]. split.
  - intros i pid A. now apply (i_pc s I) in A as [_ A].
  - intros i k e A. apply (i_pc s I) in A as (G & -> & ->). destruct (i_done s I G) as ((c & pid & C & Ev) & j & q & B).
    exists c, pid, j. rewrite C, Ev. split; [reflexivity|]. split; [reflexivity|]. pose proof (i_pc s I _ _ B) as (_ & c' & C'). rewrite C in C'. injection C' as _ ->. exact B.
Qed.
Print Assumptions C86_one_core.

(* C86_stays.  Once svr2_init has succeeded, core and environment stay as they are. *)
Theorem C86_stays : forall s i pid es s', reachable s -> answered s i (InitOK pid) -> run s es = Some s' -> cr s' = cr s /\ env s' = env s.
Proof.
  intros s i pid es s' R A H. pose proof (inv_reach s R) as I. pose proof (i_pc s I _ _ A) as [G _]. now apply (initiated_run es s s').
Qed.
Print Assumptions C86_stays.

(* C86_no_race.  At no time is one call about to replace the environment or the core while
   another uses or replaces them, and nothing is used that is not there. *)
Theorem C86_no_race : forall s, reachable s ->
  (forall i j p q, nth_error (calls s) i = Some p -> nth_error (calls s) j = Some q -> i <> j -> replaces p = true -> replaces q = false /\ uses q = false) /\
  (forall i, ~ answered s i Crashed).
Proof.
  intros s R. pose proof (inv_reach s R) as I. split; [|intros i A; exact (i_pc s I _ _ A)].
  intros i j p q A B N P. assert (Ip : in_init p = true) by (destruct p; try discriminate P; reflexivity).
  assert (G : g s = Initiating) by (pose proof (i_pc s I _ _ A) as O; destruct p; try discriminate P; cbn in O; tauto).
  assert (Iq : in_init q = false) by (destruct (in_init q) eqn:Q; [|reflexivity]; destruct N; eapply (i_one s I); eassumption).
  pose proof (i_pc s I _ _ B) as O. destruct q; try discriminate Iq; cbn in *; try (split; reflexivity). destruct O as [O _]. congruence.
Qed.
Print Assumptions C86_no_race.

(* C86_restart.  After a start that failed the enclave can be started: a call of svr2_init is
   refused only if one has succeeded or is under way. *)
Theorem C86_restart : forall s i raw x s', reachable s -> nth_error (calls s) i = Some (PInit raw) -> step s (EStep i x) = Some s' -> answered s' i ReInit ->
  (exists j pid, answered s j (InitOK pid)) \/ (exists j p, nth_error (calls s) j = Some p /\ in_init p = true).
Proof.
  intros s i raw x s' R Hi E A. pose proof (inv_reach s R) as I. destruct (g s) eqn:G.
  - exfalso. cbn [step] in E. rewrite Hi in E. cbn [step_pc] in E. rewrite G in E. injection E as <-. unfold answered in A. cbn [calls] in A. rewrite nth_set, Nat.eqb_refl, Hi in A. discriminate A.
  - right. now apply (i_some s I).
  - left. now apply (i_done s I).
Qed.
Print Assumptions C86_restart.

(* C86_start_reported_partial.  The host's Init returns with the lock released if it succeeds,
   and if it fails before the enclave is created.  Missing: failures afterwards; see the
   refutation. *)
Theorem C86_start_reported_partial : forall f, f = NoFailure \/ f = AlreadyInitiated \/ f = MarshalFails \/ f = CreateFails -> exec false [] (go_init f) = Returned false.
Proof. intros f [->|[->|[->| ->]]]; reflexivity. Qed.
Print Assumptions C86_start_reported_partial.

(* C86_start_reported_refuted.  If the created enclave's svr2_init fails - for example because it
   does not accept its configuration - the host's Init waits for ever for the lock it holds
   itself, and the error is not reported. *)
Theorem C86_start_reported_refuted : forall f, f = InitCallFails \/ f = InitReturnsError \/ f = SignalFails -> init_error f = true /\ exec false [] (go_init f) = Blocked.
Proof. intros f [->|[->| ->]]; split; reflexivity. Qed.
Print Assumptions C86_start_reported_refuted.

(* a first start fails, a message comes too early, a second start succeeds next to a third one that is refused *)
Example starts : exists s, run enclave0
  [ECallInit (Some (Config true 1)); ECallInit None; ECallMsg true; EStep 0 (inl 0%N); EStep 1 (inl 0%N); EStep 2 (inl 0%N); EStep 0 (inl 0%N); EStep 0 (inl 0%N); EStep 0 (inl 9%N);
   ECallInit (Some (Config false 2)); ECallMsg true; EStep 3 (inl 0%N); EStep 3 (inl 0%N); EStep 3 (inl 0%N); EStep 3 (inr 77%N); EStep 3 (inl 0%N); EStep 3 (inl 0%N);
   EStep 4 (inl 0%N); EStep 4 (inl 0%N); EStep 4 (inl 0%N)] = Some s /\
  answered s 0 (CreateErr 9) /\ answered s 1 ReInit /\ answered s 2 NoInit /\ answered s 3 (InitOK 77) /\
  answered s 4 (Received (Some (Config false 2, 77%N)) (Some false)).
Proof. eexists. split; [vm_compute; reflexivity|]. repeat split. Qed.
