(* C46: every request an enclave sends to a peer is answered once: by that peer, by a
   timeout, by the peer's reset, or at once because it could not be sent. *)
From Verif Require Import E2ESpec TimeoutProofs E2EProofs.
Open Scope Z_scope.

(* requests get the numbers 1, 2, ... in order *)
Theorem C46_requests_are_numbered_in_order h s rs h1 to d sent h2 :
  eexec no_e2e h = Ret (s, rs) -> h = h1 ++ ESend to d sent :: h2 ->
  asked_after h1 h rs (count is_send h1 + 1)%N to d sent.
Proof.
  intros E ->. pose proof (reached _ _ _ E) as V. exists h2.
  rewrite exec_app in E. destruct (eexec no_e2e h1) as [[s1 rs1]|] eqn:E1; [|discriminate]. cbn in E.
  pose proof (reached _ _ _ E1) as V1.
  destruct (e2e_send s1 to d sent) as [[s2 r]|] eqn:Es; [|discriminate]. destruct (eexec s2 h2) as [[s3 rs3]|]; [|discriminate].
  injection E as <- <-. exists r. split; [reflexivity|]. split.
  - rewrite nth_error_app2, <- (v_len _ _ _ V1), Nat.sub_diag by (rewrite (v_len _ _ _ V1); lia). reflexivity.
  - rewrite <- (v_next _ _ _ V1). unfold e2e_send in Es. destruct sent; cbn in Es; [|now injection Es as <- <-].
    destruct d as [d|]; [|now injection Es as <- <-]. destruct (set_timeout _ _ _) as [[t [a i|i f|]]|]; try discriminate. now injection Es as <- <-.
Qed.

(* a request still waits and its callback has not run, or it does not and its callback
   has run exactly once; nothing else is ever called *)
Theorem C46_answered_exactly_once h s rs tx : eexec no_e2e h = Ret (s, rs) ->
  ((exists to d sent, asked h rs tx to d sent) ->
     (waiting_for s tx /\ calls tx rs = []) \/ (~ waiting_for s tx /\ exists w, calls tx rs = [w])) /\
  ((forall to d sent, ~ asked h rs tx to d sent) -> ~ waiting_for s tx /\ calls tx rs = []).
Proof.
  intros E. pose proof (reached _ _ _ E) as V. destruct (v_calls _ _ _ V tx) as [C1 [C2 C3]].
  assert (Dec : waiting_for s tx \/ ~ waiting_for s tx).
  { destruct (find_tx tx (e_out s)) as [x|] eqn:Ef; [left; exists x; now apply find_tx_some in Ef|right].
    intros [x [Hx Ex]]. now apply (find_tx_none _ _ Ef x Hx). }
  split.
  - intros (to & d & b & h1 & h2 & r & Eh & N1 & R). destruct (v_num _ _ _ V _ _ _ _ _ Eh N1 R) as [_ Etx].
    assert (Hr : (1 <= tx <= e_next s)%N). { rewrite (v_next _ _ _ V), Eh, count_app, count_cons. cbn [is_send]. lia. }
    destruct Dec; [left|right]; auto.
  - intros Hn. split.
    + intros [x [Hx <-]]. destruct (v_out _ _ _ V x Hx) as (h1 & d & A & _). apply (Hn (x_to x) d true). now exists h1.
    + destruct (N.eq_dec tx 0) as [->|H0]; [apply C2; now left|]. destruct (N.lt_ge_cases (e_next s) tx); [apply C2; now right|].
      exfalso. destruct (v_all _ _ _ V tx ltac:(lia)) as (to & d & b & A). exact (Hn _ _ _ A).
Qed.

(* why a callback runs: the request could not be sent; the peer it was sent to answers
   it; at least as many ticks have passed as its timeout says; that peer is reset *)
Theorem C46_why_a_callback_runs h o s rs r tx w :
  eexec no_e2e (h ++ [o]) = Ret (s, rs ++ [r]) -> In (tx, w) (r_called r) ->
  match w with
  | WNotSent => exists to d, o = ESend to d false /\ r_sent r = Some tx
  | WResponse p => o = EResponse p tx /\ exists d, asked h rs tx p d true
  | WTimeout => (exists k, o = ERun k) /\
                exists h1 to d, asked_after h1 h rs tx to (Some d) true /\ e_ticks h1 + due d <= e_ticks h
  | WReset => exists p d, o = EReset p /\ asked h rs tx p d true
  end.
Proof.
  intros E Hin. rewrite exec_app in E. destruct (eexec no_e2e h) as [[s1 rs1]|] eqn:E1; [|discriminate].
  cbn [exec] in E. destruct (e2e_step s1 o) as [[s2 r2]|] eqn:Es; [|discriminate].
  assert (X : s2 = s /\ rs1 = rs /\ r2 = r) by (injection E as -> Er; apply app_inj_tail in Er as [-> ->]; auto). destruct X as (-> & -> & ->).
  pose proof (reached _ _ _ E1) as V. clear E E1.
  destruct o as [to d b|from tx'| |k|id]; cbn in Es.
  - unfold e2e_send in Es. destruct b; cbn in Es.
    + destruct d as [d|]; [|injection Es as <- <-; contradiction]. destruct (set_timeout _ _ _) as [[t [a i|i f|]]|]; try discriminate.
      injection Es as <- <-; contradiction.
    + injection Es as <- <-. destruct Hin as [Hin|[]]. inversion Hin; subst. eauto.
  - injection Es as Es. unfold e2e_response in Es. destruct (find_tx tx' (e_out s1)) as [x|] eqn:Ef; [|injection Es as <- <-; contradiction].
    destruct (beq (x_to x) from) eqn:Eb; cbn in Es; [|injection Es as <- <-; contradiction]. injection Es as <- <-.
    destruct Hin as [Hin|[]]. inversion Hin; subst. split; [reflexivity|]. apply beq_eq in Eb. apply find_tx_some in Ef as [Hx Ex].
    destruct (v_out _ _ _ V x Hx) as (h1 & d & A & _). rewrite Ex, Eb in A. exists d, h1. exact A.
  - destruct (timer_tick _); [|discriminate]. injection Es as <- <-; contradiction.
  - unfold run_one in Es. destruct (take_nth k (t_running (e_time s1))) as [[[i tx'] r']|] eqn:Et; [|injection Es as <- <-; contradiction].
    injection Es as Es. unfold e2e_timed_out in Es. cbn [e_out] in Es. destruct (find_tx tx' (e_out s1)); injection Es as <- <-; [|contradiction].
    destruct Hin as [Hin|[]]. inversion Hin; subst. split; [eauto|]. destruct (take_nth_perm _ _ _ _ Et) as [u [v [Eu _]]].
    apply (v_run _ _ _ V i). rewrite Eu. apply in_elt.
  - injection Es as <- <-. cbn in Hin. apply in_map_iff in Hin as [x [Ex Hx]]. apply filter_In in Hx as [Hx Hid]. apply beq_eq in Hid.
    inversion Ex; subst. destruct (v_out _ _ _ V x Hx) as (h1 & d & A & _). exists (x_to x), d. split; [reflexivity|]. now exists h1.
Qed.

(* the answer of the peer it was sent to reaches the request's callback *)
Theorem C46_the_peers_answer_arrives h s rs tx p d sent :
  eexec no_e2e h = Ret (s, rs) -> waiting_for s tx -> asked h rs tx p d sent ->
  exists s', e2e_step s (EResponse p tx) = Ret (s', ERes None [(tx, WResponse p)]) /\
    forall tx', waiting_for s' tx' <-> waiting_for s tx' /\ tx' <> tx.
Proof.
  intros E [x [Hx Ex]] [h1 A]. pose proof (reached _ _ _ E) as V. destruct (v_out _ _ _ V x Hx) as (h1' & d' & A' & _). rewrite Ex in A'.
  destruct (asked_once _ _ _ _ _ _ _ _ _ _ _ _ V A A') as (_ & Ep & _). cbn. unfold e2e_response.
  rewrite (find_tx_in _ _ _ (v_nodup _ _ _ V) Hx Ex), <- Ep, beq_refl. cbn. eexists. split; [reflexivity|].
  intros tx'. now apply wait_erased.
Qed.
(* an answer from any other peer, or to a request already answered or never made,
   changes nothing *)
Theorem C46_other_answers_are_ignored h s rs tx p :
  eexec no_e2e h = Ret (s, rs) -> ~ waiting_for s tx \/ (forall d sent, ~ asked h rs tx p d sent) ->
  e2e_step s (EResponse p tx) = Ret (s, ERes None []).
Proof.
  intros E H. pose proof (reached _ _ _ E) as V. cbn. unfold e2e_response. destruct (find_tx tx (e_out s)) as [x|] eqn:Ef; [|reflexivity].
  apply find_tx_some in Ef as [Hx Ex]. destruct H as [H|H]; [exfalso; apply H; exists x; auto|].
  destruct (beq (x_to x) p) eqn:Eb; [|reflexivity]. exfalso. apply beq_eq in Eb.
  destruct (v_out _ _ _ V x Hx) as (h1 & d & A & _). rewrite Ex, Eb in A. apply (H d true). now exists h1.
Qed.
(* resetting a peer answers all requests to it, and only those *)
Theorem C46_a_reset_answers_all h s rs p s' r :
  eexec no_e2e h = Ret (s, rs) -> e2e_step s (EReset p) = Ret (s', r) ->
  forall tx to d sent, asked h rs tx to d sent -> waiting_for s tx ->
  (to = p -> In (tx, WReset) (r_called r) /\ ~ waiting_for s' tx) /\
  (to <> p -> calls tx [r] = [] /\ waiting_for s' tx).
Proof.
  intros E Es tx to d sent [h1 A] [x [Hx Ex]]. pose proof (reached _ _ _ E) as V. cbn in Es. injection Es as <- <-.
  destruct (v_out _ _ _ V x Hx) as (h1' & d' & A' & _). rewrite Ex in A'.
  destruct (asked_once _ _ _ _ _ _ _ _ _ _ _ _ V A A') as (_ & Ep & _).
  assert (Huniq : forall y, In y (e_out s) -> x_tx y = tx -> x = y).
  { intros y Hy Ey. pose proof (find_tx_in _ _ _ (v_nodup _ _ _ V) Hx Ex). pose proof (find_tx_in _ _ _ (v_nodup _ _ _ V) Hy Ey). congruence. }
  split; intros Hp; cbn [r_called e_out].
  - split.
    + apply in_map_iff. exists x. split; [congruence|]. apply filter_In. split; [assumption|]. apply beq_eq. congruence.
    + intros [y [Hy Ey]]. cbn in Hy. apply filter_In in Hy as [Hy Hb]. apply Huniq in Hy; [|assumption]. subst y.
      rewrite <- Ep, Hp, beq_refl in Hb. discriminate.
  - split.
    + unfold calls. cbn. rewrite app_nil_r, called_map by (apply NoDup_map_filter, V).
      destruct (existsb _ _) eqn:Ee; [|reflexivity]. exfalso. apply existsb_exists in Ee as [y [Hy Ey]]. apply N.eqb_eq in Ey.
      apply filter_In in Hy as [Hy Hb]. apply beq_eq in Hb. apply Huniq in Hy; [|assumption]. congruence.
    + exists x. split; [|assumption]. cbn. apply filter_In. split; [assumption|]. apply Bool.negb_true_iff, Bool.not_true_iff_false.
      rewrite beq_eq. congruence.
Qed.
(* with a timeout, a request is answered by the time the timeout's ticks have passed
   and the timer has called what was due *)
Theorem C46_a_timeout_bounds_the_wait h s rs tx h1 to d :
  eexec no_e2e h = Ret (s, rs) -> asked_after h1 h rs tx to (Some d) true ->
  e_ticks h1 + due d <= e_ticks h -> caught_up s -> ~ waiting_for s tx.
Proof.
  intros E A Ht Hc [x [Hx Ex]]. pose proof (reached _ _ _ E) as V. destruct (v_out _ _ _ V x Hx) as (h1' & d' & A' & B).
  rewrite Ex in A'. destruct (asked_once _ _ _ _ _ _ _ _ _ _ _ _ V A A') as (<- & _ & <- & _). destruct B as [B1 B2].
  unfold caught_up in Hc. destruct (v_held _ _ _ V x Hx) as [H|[H|H]].
  - rewrite H in B2. cbn in B2. lia.
  - destruct (v_ok _ _ _ V) as (_ & _ & _ & _ & X). apply X in H. cbn in H. rewrite (v_ticks _ _ _ V), B1 in H. lia.
  - rewrite Hc in H. contradiction.
Qed.
(* and the timer gets there: functions due can be called whenever there are some *)
Theorem C46_the_timer_catches_up s k : (k < length (t_running (e_time s)))%nat ->
  exists s' r, e2e_step s (ERun k) = Ret (s', r) /\ length (t_running (e_time s)) = S (length (t_running (e_time s'))).
Proof.
  intros Hk. cbn. unfold run_one. destruct (take_nth k (t_running (e_time s))) as [[[i tx] r']|] eqn:Et.
  - destruct (take_nth_perm _ _ _ _ Et) as [u [v [Eu ->]]]. unfold e2e_timed_out. cbn [e_out].
    destruct (find_tx tx (e_out s)); (eexists _, _; split; [reflexivity|]; cbn; rewrite Eu, !app_length; cbn; lia).
  - exfalso. revert Hk Et. generalize (t_running (e_time s)). clear. induction k as [|k IH]; intros [|[i f] l]; cbn; try lia; try discriminate.
    destruct (take_nth k l) as [[y r]|] eqn:E; [discriminate|]. intros Hk _. apply (IH l); [lia|assumption].
Qed.

(* --- a concrete run -------------------------------------------------------- *)
Example pa : bytes := [1%N].
Example pb : bytes := [2%N].
Example run : list eop :=
  [ESend pa (Some 2) true; ESend pb None true; ESend pa None false; EResponse pb 1; EResponse pa 1; EResponse pa 1;
   ESend pa (Some 1) true; ESend pa None true; ETick; ERun 0; EReset pa; EResponse pa 5].
Example run_result :
  match eexec no_e2e run with
  | Ret (s, rs) => (map r_called rs, map x_tx (e_out s), caught_up s)
  | Crash => ([], [], False)
  end =
  ([[]; []; [(3%N, WNotSent)]; []; [(1%N, WResponse pa)]; []; []; []; []; [(4%N, WTimeout)]; [(5%N, WReset)]; []], [2%N], ([] : list (Z * N)) = []).
Proof. vm_compute. reflexivity. Qed.
(* the hypotheses of the theorems are met along it *)
Example run_waits : exists s rs, eexec no_e2e (firstn 4 run) = Ret (s, rs) /\ waiting_for s 1 /\ asked (firstn 4 run) rs 1 pa (Some 2) true.
Proof.
  eexists _, _. split; [vm_compute; reflexivity|]. split; [eexists; split; [left; reflexivity|reflexivity]|].
  exists [], (tl (firstn 4 run)), (ERes (Some 1%N) []). repeat split.
Qed.
Example run_due : exists s rs, eexec no_e2e (firstn 10 run) = Ret (s, rs) /\ caught_up s /\
  asked_after (firstn 6 run) (firstn 10 run) rs 4 pa (Some 1) true /\ e_ticks (firstn 6 run) + due 1 <= e_ticks (firstn 10 run).
Proof.
  eexists _, _. split; [vm_compute; reflexivity|]. split; [reflexivity|]. split; [|vm_compute; discriminate].
  exists (skipn 7 (firstn 10 run)), (ERes (Some 4%N) []). repeat split.
Qed.

Print Assumptions C46_requests_are_numbered_in_order.
Print Assumptions C46_answered_exactly_once.
Print Assumptions C46_why_a_callback_runs.
Print Assumptions C46_the_peers_answer_arrives.
Print Assumptions C46_other_answers_are_ignored.
Print Assumptions C46_a_reset_answers_all.
Print Assumptions C46_a_timeout_bounds_the_wait.
Print Assumptions C46_the_timer_catches_up.
