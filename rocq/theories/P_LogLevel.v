(* C99: what is fatal stops the enclave, whatever is logged.
   C100: the log level is set for the host and its enclave together. *)
From Verif Require Import Base LogLevel.
Open Scope Z_scope.

(* A CHECK stops the enclave at any level. *)
Theorem C99_check_stops msg e : check false msg e = Crash.
Proof. unfold check. destruct (log_stmt _ _ e); reflexivity. Qed.

(* The level that counts: the last one that was accepted. *)
Definition accepted (l : Z) : bool := l <? 7.
Definition level_after (initial : Z) (ls : list Z) : Z :=
  last (filter accepted ls) (if initial =? 0 then 4 else initial).

Lemma level_after_is ls : forall e, level (requests ls e) = last (filter accepted ls) (level e).
Proof.
  induction ls as [|l ls IH]; intros e; [reflexivity|]. cbn [requests]. rewrite IH. unfold set_log_level, accepted, MAX.
  cbn [filter]. destruct (Z.leb_spec 7 l), (Z.ltb_spec l 7); try lia; [reflexivity|]. cbn [fst set_level level].
  destruct (filter (fun l0 : Z => l0 <? 7) ls) as [|x r] eqn:F; [reflexivity|].
  change (last (l :: x :: r) (level e)) with (last (x :: r) (level e)).
  clear. revert x. induction r as [|y r IHr]; intros x; [reflexivity|]. cbn [last] in *. apply IHr.
Qed.

(* Started with any level and sent any levels since: a fatal log statement stops
   the enclave, and a thread serves the host, exactly if the level in force is
   at least FATAL. *)
Theorem C99_fatal_stops_exactly_if_logged_partial initial ls body :
  let e := requests ls (init_level initial booted) in
  (log_stmt FATAL body e = Crash <-> 1 <= level_after initial ls) /\
  (log_stmt FATAL body e = Ret e <-> level_after initial ls < 1) /\
  (serves e = true <-> 1 <= level_after initial ls).
Proof.
  cbn zeta. set (e := requests ls (init_level initial booted)).
  assert (L : level e = level_after initial ls).
  { unfold e, level_after. rewrite level_after_is. unfold init_level, NONE. now destruct (initial =? 0). }
  unfold log_stmt, serves, FATAL. rewrite L. destruct (body e) as [e1 m].
  destruct (Z.leb_spec 1 (level_after initial ls)); cbn [Z.eqb];
    (split; [|split]); split; intros; first [reflexivity|assumption|discriminate|lia].
Qed.
(* So all is well as long as nobody asks for less than that. *)
Theorem C99_fatal_stops_partial initial ls body :
  0 <= initial -> Forall (fun l => 1 <= l) ls ->
  log_stmt FATAL body (requests ls (init_level initial booted)) = Crash.
Proof.
  intros Hi H. apply C99_fatal_stops_exactly_if_logged_partial. unfold level_after.
  assert (F : Forall (fun l => 1 <= l) (filter accepted ls)).
  { apply Forall_forall. intros x Hx. apply filter_In in Hx as [Hx _]. rewrite Forall_forall in H. auto. }
  assert (D : 1 <= (if initial =? 0 then 4 else initial)) by (destruct (Z.eqb_spec initial 0); lia).
  revert D. generalize (if initial =? 0 then 4 else initial). induction F as [|x l Hx Hl IH]; intros d D; [exact D|].
  destruct l as [|y l]; [exact Hx|]. cbn [last] in *. apply IH. exact D.
Qed.
Example C99_meets : log_stmt FATAL (fun e => (e, [])) (requests [6; 9; 2] (init_level 0 booted)) = Crash /\
  level (requests [6; 9; 2] (init_level 0 booted)) = 2.
Proof. split; reflexivity. Qed.

(* But the host may ask for NONE, and is told that all is well: then a thread
   whose instruction faults does not stop the enclave but runs the handler for
   ever. *)
Theorem C99_faults_for_ever_refuted msg e :
  exists e', set_log_level NONE e = (e', true) /\ forall n, faulting msg n e' = Ret e'.
Proof.
  exists (set_level NONE e). split; [reflexivity|]. induction n as [|n IH]; [reflexivity|]. cbn. exact IH.
Qed.
(* And an enclave that is started with a level that is no level, below NONE, does
   not serve: no thread takes a message, whatever the host sends. *)
Theorem C99_started_but_deaf_refuted l n : l < 0 ->
  let e := init_level l booted in serves e = false /\ server_thread n e = Ret e.
Proof.
  intros H e. unfold e, init_level, NONE. destruct (Z.eqb_spec l 0); [lia|].
  unfold serves, server_thread, log_stmt, FATAL. cbn [set_level level]. destruct (Z.leb_spec 1 l); [lia|]. auto.
Qed.

(* C100.  What was asked for by name, if it is not MAX: both have it, and a
   message of the enclave is then written by the host exactly if it is of that
   level or a graver one; through the socket and on SGX. *)
Definition message_level (m : Z) : Prop := 1 <= m <= 6.
Definition asked (n : level_name) : Z :=
  match n with NFatal => 1 | NError => 2 | NWarning => 3 | NInfo => 4 | NDebug => 5 | NVerbose => 6 | NMax => 7 end.
Theorem C100_level_set_for_both_partial n host e :
  n <> NMax ->
  exists h e', post_level (Some n) true host e = (200%N, h, e') /\ level e' = asked n /\
    forall m msg, message_level m ->
      (asked n < m -> log_stmt m (fun e => (e, msg)) e' = Ret e') /\
      (m <= asked n ->
        (m = 1 /\ log_stmt m (fun e => (e, msg)) e' = Crash \/
         1 < m /\ exists e2, log_stmt m (fun e => (e, msg)) e' = Ret e2 /\ logged e2 = logged e ++ [(m, msg)]) /\
        shown h (socket_level m) = true /\ shown h (sgx_level m) = true).
Proof.
  intros N. unfold post_level. destruct n; try contradiction; cbn [parse_level];
  (eexists; eexists; split; [reflexivity|]; split; [reflexivity|]; intros m body Hm;
   unfold message_level in Hm; cbn [asked];
   assert (C : m = 1 \/ m = 2 \/ m = 3 \/ m = 4 \/ m = 5 \/ m = 6) by lia;
   destruct C as [->|[->|[->|[->|[->| ->]]]]]; (split; [intros L; first [lia|reflexivity]|intros L]; try lia);
   (split; [|split; reflexivity]);
   first [left; split; reflexivity | right; split; [lia|]; eexists; split; reflexivity]).
Qed.
(* A name that is not known changes nothing. *)
Theorem C100_unknown_level_changes_nothing reach host e : post_level None reach host e = (400%N, host, e).
Proof. reflexivity. Qed.
(* But MAX, which the host knows, the enclave always refuses, and the host's
   level is changed by then; *)
Theorem C100_max_is_half_set_refuted host e :
  post_level (Some NMax) true host e = (500%N, -1, e).
Proof. reflexivity. Qed.
(* as it is if the enclave cannot be reached. *)
Theorem C100_half_set_refuted host e : exists n h,
  post_level (Some n) false host e = (500%N, h, e) /\ h <> host.
Proof.
  destruct (Z.eq_dec host 2) as [->|H]; [exists NInfo, 0|exists NError, 2]; (split; [reflexivity|lia]).
Qed.
Example C100_meets : exists e', post_level (Some NWarning) true 0 booted = (200%N, 1, e') /\ level e' = 3 /\
  log_stmt INFO (fun e => (e, [1%N])) e' = Ret e'.
Proof. eexists. split; [reflexivity|]. split; reflexivity. Qed.

Print Assumptions C99_check_stops.
Print Assumptions C99_fatal_stops_exactly_if_logged_partial.
Print Assumptions C99_fatal_stops_partial.
Print Assumptions C99_faults_for_ever_refuted.
Print Assumptions C99_started_but_deaf_refuted.
Print Assumptions C100_level_set_for_both_partial.
Print Assumptions C100_unknown_level_changes_nothing.
Print Assumptions C100_max_is_half_set_refuted.
Print Assumptions C100_half_set_refuted.
