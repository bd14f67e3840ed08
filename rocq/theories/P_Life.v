(* What a user can rely on about configurations and about creating and joining groups. *)
From Verif Require Import LifeSpec LifeProofs.

(* C53: whatever group a replica creates, loads, asks to be in or is in has a
   configuration within the limits that agrees, but for the group id, with the one the
   replica was started with. *)
Theorem C53_groups_run_within_limits e g s0 h s es c :
  new_core e g = Some s0 -> exec life_step s0 h = Ret (s, es) ->
  group_of s = Some c -> limits c /\ agree g c.
Proof.
  intros N H G. destruct (new_keeps _ _ _ N) as (K & _). destruct (exec_keeps _ _ _ _ _ K H) as [_ L _ A].
  specialize (A _ G). split; [exact (agree_limits _ _ A L)|exact A].
Qed.
(* C53: a replica starts exactly when what it is given satisfies the limits. *)
Theorem C53_start_exactly_within_limits e g :
  (exists s0, new_core e g = Some s0) <-> (exists c, as_asked e c /\ timing c) /\ limits g.
Proof.
  assert (G : (exists c, as_asked e c /\ timing c) <-> timing (merge_econf default_econf e)).
  { split; [intros [c [Hc Ht]]; now rewrite (as_asked_unique _ _ _ (merged_as_asked e) Hc)|]. eauto using merged_as_asked. }
  rewrite G. clear G.
  unfold new_core. rewrite <- valid_gconf_limits, <- valid_econf_timing.
  destruct (valid_econf _), (valid_gconf g); cbn; split; try easy; try (intros [? ?]; easy).
  intros _. eauto.
Qed.
(* C53: a group is created only by a replica that has done nothing yet, and once. *)
Theorem C53_created_only_from_nothing s1 o s2 e c :
  life_step s1 o = Ret (s2, e) -> In (ECreated c) e ->
  started_nothing s1 /\ (exists tx rand, o = LCreate tx rand) /\ in_group s2 c.
Proof.
  intros H I. destruct (step_moved _ _ _ _ H) as (M & _).
  destruct M as [? n|id tx rand P -> P' ->|p tx _ _ n|p tx l _ _ _ n|l l' _ _ _ n|l _ _ n|c' _ _ n]; try discriminate (n _ I).
  split; [exact P|]. split; [eauto|]. destruct I as [[= <-]|[|[]]]; [exact P'|discriminate].
Qed.
Theorem C53_created_at_most_once e g s0 h s es :
  new_core e g = Some s0 -> exec life_step s0 h = Ret (s, es) -> count is_create_event (concat es) <= 1.
Proof. intros _. apply exec_created. Qed.
(* C53: the configuration of the group a replica is in never changes: to get another
   it has to be outside of the group and be told to join. *)
Theorem C53_running_config_never_changes s0 h1 h2 s1 s2 es1 es2 c c' :
  exec life_step s0 h1 = Ret (s1, es1) -> group_of s1 = Some c ->
  exec life_step s1 h2 = Ret (s2, es2) -> group_of s2 = Some c' ->
  c' = c \/
  exists h3 o h4 s3 es3, h2 = h3 ++ o :: h4 /\ exec life_step s1 h3 = Ret (s3, es3) /\ group_of s3 = Some c /\ join_followed s3 o.
Proof.
  intros _ G H G'. destruct (exec_group _ _ _ _ _ H G) as [G2|E]; [|now right]. left. congruence.
Qed.
Theorem C53_members_refuse_to_join s c tx peer connected :
  in_group s c -> life_step s (LJoin tx peer connected) = Ret (s, [EReply tx false]).
Proof. unfold in_group. cbn. unfold join. now intros ->. Qed.
(* C53: times and sizes stay within their limits through every reconfiguration; a
   refused one changes nothing. *)
Theorem C53_timing_limits_hold e g s0 h s es :
  new_core e g = Some s0 -> exec life_step s0 h = Ret (s, es) -> timing (co_econf s).
Proof. intros N H. destruct (new_keeps _ _ _ N) as (K & _). now destruct (exec_keeps _ _ _ _ _ K H). Qed.
Theorem C53_reconfigure_exactly_within_limits s r s' es :
  life_step s (LReconfigure r) = Ret (s', es) ->
  exists c, as_asked r c /\
  ((es = [EReconfigured true] /\ timing c /\ co_econf s' = c /\ co_phase s' = co_phase s)
   \/ (es = [EReconfigured false] /\ ~ timing c /\ s' = s)).
Proof.
  intros H. exists (merge_econf default_econf r). split; [apply merged_as_asked|]. revert H.
  cbn. unfold reconfigure. rewrite <- valid_econf_timing. destruct (valid_econf _); intros [= <- <-]; [left|right]; easy.
Qed.

(* C59: only one request to join in its life: the replica is loaded only by the answer
   to the transfer it last asked for, and no answer stops it.  Missing: more than one
   request, for which see below. *)
Theorem C59_one_attempt_loads_from_its_answer_partial e g s0 h s es i a s' es' l :
  new_core e g = Some s0 -> count is_join h <= 1 -> exec life_step s0 h = Ret (s, es) ->
  life_step s (LAnswer i a) = Ret (s', es') -> In (EPromoted l) es' ->
  nth_error (co_calls s) i = Some (CReplicate (ld_from l) (ld_tx l) (ld_repl l)) /\ co_phase s = Loading l.
Proof.
  intros N C H A I. destruct (new_keeps _ _ _ N) as (_ & P0 & C0).
  assert (O : once_ok s) by (eapply exec_fresh; [|exact C|exact H]; unfold fresh_ok, repls; now rewrite P0, C0).
  cbn in A. unfold on_answer in A. destruct (nth_error (co_calls s) i) as [[p tx|p tx rp]|] eqn:Nt; [| |injection A as <- <-; destruct I].
  - exfalso. injection A as A. unfold on_get_raft in A. revert A.
    destruct a as [|gr en r|rf]; try (intros [= <- <-]; now destruct I as [|[]]). cbn [co_phase co_template].
    destruct (co_phase s); try (intros [= <- <-]; now destruct I as [|[]]).
    destruct (negb _); [intros [= <- <-]; now destruct I as [|[]]|]. destruct (_ =? 0); [intros [= <- <-]; now destruct I as [|[]]|].
    destruct (negb _); [intros [= <- <-]; now destruct I as [|[]]|]. destruct (negb _); [intros [= <- <-]; now destruct I as [|[]]|].
    destruct (negb _); [intros [= <- <-]; now destruct I as [|[]]|].
    cbn. destruct en; cbn; intros [= <- <-]; [now destruct I as [|[]]|destruct I].
  - unfold on_replicated in A. cbn [co_phase] in A. destruct a as [|gr en r|rf]; try (injection A as <- <-; now destruct I as [|[]]).
    destruct (co_phase s) eqn:P; try discriminate A. destruct rf; cbn in A; injection A as <- <-; destruct I as [[= <-]|[]].
    split; [|easy]. unfold once_ok in O. rewrite P in O. unfold repls in O.
    destruct (take_nth_length _ _ _ Nt) as (l1 & l2 & E & _). rewrite E in O.
    destruct (ld_started l0); [|now destruct (remove_none _ _ _ _ _ O)]. destruct O as [O|O]; [|now destruct (remove_none _ _ _ _ _ O)].
    apply remove_repl in O as [-> _]. reflexivity.
Qed.
Theorem C59_one_attempt_never_crashes_partial e g s0 h s es o :
  new_core e g = Some s0 -> count is_join h <= 1 -> exec life_step s0 h = Ret (s, es) ->
  (forall me, o <> LMember me) -> life_step s o <> Crash.
Proof.
  intros N C H M A. destruct (new_keeps _ _ _ N) as (_ & P0 & C0).
  assert (O : once_ok s) by (eapply exec_fresh; [|exact C|exact H]; unfold fresh_ok, repls; now rewrite P0, C0).
  destruct o as [tx rand|tx peer cn|from en r|i a|me|r]; cbn in A; try discriminate A; [| | |now destruct (M me)].
  - unfold join in A. destruct (co_phase s), peer, cn; discriminate A.
  - unfold on_connect in A. destruct (co_phase s) eqn:P; try discriminate A.
    + destruct (beq from peer); [|discriminate A]. unfold join_first in A. rewrite P in A. discriminate A.
    + destruct (negb _); discriminate A.
  - unfold on_answer in A. destruct (nth_error (co_calls s) i) as [[p tx|p tx rp]|] eqn:Nt; try discriminate A.
    unfold on_replicated in A. destruct a; try discriminate A. cbn [co_phase] in A.
    destruct (take_nth_length _ _ _ Nt) as (l1 & l2 & E & _). unfold once_ok, repls in O. rewrite E in O.
    destruct (co_phase s) eqn:P; try (now destruct (remove_none _ _ _ _ _ O)). destruct (negb _); discriminate A.
Qed.

(* ---- concrete runs ---- *)
Definition ex_g : gconf := GConf 0 3 5 1 4 3600 false.
Definition ex_e : econf := EConf 0 0 4096 0 0 0 0 0.
Definition ex_s0 : core := Core ex_g (merge_econf default_econf ex_e) NoState [].
Definition ex_got (id : N) : got_raft := GotRaft (GConf id 3 5 1 4 3600 false) 2 true true true.
Definition ex_peer : bytes := [7]%N.
Definition ex_join : list lop :=
  [LJoin 1 (Some ex_peer) false; LConnect ex_peer true 0; LAnswer 0 (AGetRaft (ex_got 77) false 0); LConnect [8]%N true 501; LAnswer 0 (ADone true); LMember true].
Example C53_ex_start : new_core ex_e ex_g = Some ex_s0.
Proof. reflexivity. Qed.
Example C53_ex_joined : exists s es, exec life_step ex_s0 ex_join = Ret (s, es) /\ group_of s = Some (with_id 77 ex_g) /\ in_group s (with_id 77 ex_g) /\ count is_join ex_join <= 1.
Proof. eexists _, _. split; [vm_compute; reflexivity|]. repeat split; vm_compute; congruence. Qed.
Example C53_ex_created : exists s es, exec life_step ex_s0 [LCreate 1 (Some 42); LCreate 2 (Some 43); LJoin 3 (Some ex_peer) true] = Ret (s, es)
  /\ concat es = [ECreated (with_id 42 ex_g); EReply 1 true; EReply 2 false; EReply 3 false] /\ in_group s (with_id 42 ex_g).
Proof. eexists _, _. split; [vm_compute; reflexivity|]. split; reflexivity. Qed.
(* removed from one group, a replica may join another *)
Example C53_ex_other_group : exists s es, exec life_step ex_s0 (ex_join ++ [LMember false; LJoin 2 (Some ex_peer) true; LAnswer 0 (AGetRaft (ex_got 78) true 502)]) = Ret (s, es)
  /\ group_of s = Some (with_id 78 ex_g).
Proof. eexists _, _. split; vm_compute; reflexivity. Qed.
(* a configuration that differs is refused *)
Example C53_ex_mismatch : exists s es, exec life_step ex_s0 [LJoin 1 (Some ex_peer) true; LAnswer 0 (AGetRaft (GotRaft (GConf 77 3 5 0 4 3600 false) 2 true true true) true 0)] = Ret (s, es)
  /\ last es [] = [EReply 1 false] /\ group_of s = None.
Proof. eexists _, _. split; [vm_compute; reflexivity|]. split; reflexivity. Qed.
Example C53_ex_not_limits : ~ limits (GConf 0 3 2 1 4 3600 false) /\ new_core ex_e (GConf 0 3 2 1 4 3600 false) = None.
Proof. split; [intros [_ H _ _]; cbn in H; lia|reflexivity]. Qed.

(* C59 fails with two attempts.  The answer to the first attempt's transfer (501) comes
   when the second (502) has been asked for: the replica counts as loaded although the
   second transfer has not sent anything. *)
Definition ex_two : list lop :=
  [LJoin 1 (Some ex_peer) true; LAnswer 0 (AGetRaft (ex_got 77) true 501);
   LJoin 2 (Some ex_peer) true; LAnswer 1 (AGetRaft (ex_got 77) true 502)].
Theorem C59_old_answer_loads_refuted :
  ~ (forall e g s0 h s es i a s' es' l,
       new_core e g = Some s0 -> exec life_step s0 h = Ret (s, es) ->
       life_step s (LAnswer i a) = Ret (s', es') -> In (EPromoted l) es' ->
       nth_error (co_calls s) i = Some (CReplicate (ld_from l) (ld_tx l) (ld_repl l))).
Proof.
  intros H.
  specialize (H ex_e ex_g ex_s0 ex_two _ _ 0%nat (ADone true) _ _ _ C53_ex_start eq_refl eq_refl (or_introl eq_refl)).
  vm_compute in H. discriminate H.
Qed.
(* and if the second attempt is still waiting, the late answer stops the replica *)
Theorem C59_old_answer_crashes_refuted :
  ~ (forall e g s0 h s es o,
       new_core e g = Some s0 -> exec life_step s0 h = Ret (s, es) ->
       (forall me, o <> LMember me) -> life_step s o <> Crash).
Proof.
  intros H.
  refine (H ex_e ex_g ex_s0 [LJoin 1 (Some ex_peer) true; LAnswer 0 (AGetRaft (ex_got 77) true 501); LJoin 2 (Some ex_peer) false]
    _ _ (LAnswer 0 (ADone true)) C53_ex_start eq_refl _ _); [discriminate|reflexivity].
Qed.

(* C53: a replica runs with the times and sizes last asked for and accepted, and with
   the defaults for what was left out *)
Theorem C53_runs_with_what_was_asked e g s0 h s es :
  new_core e g = Some s0 -> exec life_step s0 h = Ret (s, es) ->
  let asked := fold_left (fun r oe => match oe with (LReconfigure r', [EReconfigured true]) => r' | _ => r end) (combine h es) e in
  as_asked asked (co_econf s).
Proof.
  intros H0. assert (H : as_asked e (co_econf s0)).
  { unfold new_core in H0. destruct (negb (valid_econf _)); [discriminate|]. destruct (negb (valid_gconf g)); [discriminate|]. injection H0 as <-. apply merged_as_asked. }
  clear H0 g. revert s0 e s es H. induction h as [|o h IH]; intros s0 e s es H E; [injection E as <- <-; exact H|].
  cbn [exec] in E. destruct (life_step s0 o) as [[s1 ev]|] eqn:E1; [|discriminate]. destruct (exec life_step s1 h) as [[s2 es2]|] eqn:E2; [|discriminate].
  injection E as <- <-. cbn [combine fold_left]. apply (IH s1 _ s2 es2); [|exact E2].
  destruct o as [tx rand|tx peer con|from enough repl|i a|me|r].
  6:{ cbn [life_step] in E1. unfold reconfigure in E1. destruct (valid_econf _); injection E1 as <- <-; [apply merged_as_asked|exact H]. }
  all: replace (co_econf s1) with (co_econf s0); [exact H|]; clear - E1; cbn [life_step] in E1.
  - unfold create in E1. destruct (co_phase s0); [destruct rand|..]; injection E1 as <- <-; reflexivity.
  - unfold join, join_first, send, set_phase in E1. destruct (co_phase s0) eqn:Ep; try (injection E1 as <- <-; reflexivity);
      (destruct peer as [p|]; [destruct con; cbn in E1|]; injection E1 as <- <-; reflexivity).
  - unfold on_connect, join_first, request_replication, send, set_phase in E1.
    destruct (co_phase s0) as [|p tx|l|c|c] eqn:Ep; try (injection E1 as <- <-; reflexivity).
    + destruct (beq from p); injection E1 as <- <-; reflexivity.
    + destruct (ld_started l); cbn in E1; [|destruct enough; cbn in E1]; injection E1 as <- <-; reflexivity.
  - unfold on_answer in E1. destruct (nth_error (co_calls s0) i) as [[peer tx|peer tx repl]|]; [| |injection E1 as <- <-; reflexivity].
    + injection E1 as E1. unfold on_get_raft, request_replication, send, set_phase in E1. cbn [co_phase co_template co_econf co_calls ld_started] in E1.
      destruct a as [|g enough repl|re]; try (injection E1 as <- <-; reflexivity).
      destruct (co_phase s0); try (injection E1 as <- <-; reflexivity).
      repeat match type of E1 with context [if ?b then _ else _] => destruct b end; injection E1 as <- <-; reflexivity.
    + unfold on_replicated in E1. cbn [co_phase] in E1. destruct a as [| |re]; try (injection E1 as <- <-; reflexivity).
      destruct (co_phase s0); try discriminate. destruct (negb re); injection E1 as <- <-; reflexivity.
  - unfold on_member in E1. destruct (co_phase s0); try discriminate; destruct me; injection E1 as <- <-; reflexivity.
Qed.
(* C53: a new group has the replica's own configuration, and the random id *)
Theorem C53_new_group_is_as_configured s1 o s2 e c :
  life_step s1 o = Ret (s2, e) -> In (ECreated c) e -> (exists tx, o = LCreate tx (Some (gc_id c))) /\ agree (co_template s1) c.
Proof.
  intros E Hi. destruct (C53_created_only_from_nothing _ _ _ _ _ E Hi) as [H1 [[tx [rand ->]] _]]. cbn [life_step] in E. unfold create in E.
  red in H1. rewrite H1 in E. destruct rand as [id|]; injection E as <- <-; destruct Hi as [Hi|Hi]; try discriminate; [|destruct Hi as [Hi|[]]; discriminate|contradiction].
  injection Hi as <-. split; [exists tx; reflexivity|constructor; reflexivity].
Qed.
(* C53: a replica with a log counts as a member exactly if the last membership in its
   log has it, and its group stays the same *)
Theorem C53_member_exactly_if_in_the_log s me s' e :
  life_step s (LMember me) = Ret (s', e) -> group_of s' = group_of s /\ ((exists c, in_group s' c) <-> me = true).
Proof.
  cbn [life_step]. unfold on_member, group_of, in_group, set_phase. intros E.
  destruct (co_phase s) as [| | |c|c] eqn:Ep; try discriminate; destruct me; injection E as <- _; cbn [co_phase]; rewrite ?Ep; (split; [reflexivity|]); split; intros H; try discriminate; eauto; destruct H; discriminate.
Qed.

Print Assumptions C53_groups_run_within_limits.
Print Assumptions C53_start_exactly_within_limits.
Print Assumptions C53_created_only_from_nothing.
Print Assumptions C53_created_at_most_once.
Print Assumptions C53_running_config_never_changes.
Print Assumptions C53_members_refuse_to_join.
Print Assumptions C53_timing_limits_hold.
Print Assumptions C53_reconfigure_exactly_within_limits.
Print Assumptions C59_one_attempt_loads_from_its_answer_partial.
Print Assumptions C59_one_attempt_never_crashes_partial.
Print Assumptions C59_old_answer_loads_refuted.
Print Assumptions C59_old_answer_crashes_refuted.
Print Assumptions C53_runs_with_what_was_asked.
Print Assumptions C53_new_group_is_as_configured.
Print Assumptions C53_member_exactly_if_in_the_log.
