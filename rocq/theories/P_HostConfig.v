(* C94: a host that accepts its configuration can run with it.
   C95: the password of the hosts' store is not logged. *)
From Verif Require Import Base HostConfig.
Open Scope Z_scope.

(* What is wanted of a host that runs: it does not stop, some thread hands
   requests to the enclave, every loop wakes up, a message to a peer can
   wait. *)
Definition works (o : outcome running) : Prop :=
  match o with
  | Crash => False
  | Ret s => 0 < forwarders s /\ 0 < ticks_every s /\ 0 < attests_every s /\ 0 < polls_every s /\
             0 < checks_every s /\ refreshes_every s <> None /\ queue_message s 0 = true
  end.

Lemma read_some c c' : read c = Some c' -> c' = c /\ 1 < raft_concurrency c /\ 0 < raft_tick c /\
  0 < raft_attest c /\ 0 < req_handshake c /\ 0 < req_socket c /\ redis_addrs c <> [] /\
  (limit_skip c = false -> 0 <= limit_bucket c /\ 0 <= limit_rate c) /\
  (forall a, In a (redis_addrs c) -> parts a = 2%nat).
Proof.
  unfold read. destruct (validate c) eqn:V; [|discriminate]. intros H. injection H as <-.
  unfold validate in V. apply app_eq_nil in V as [V1 V]. apply app_eq_nil in V as [V2 V].
  apply app_eq_nil in V as [V3 V4].
  unfold raft_validate in V1. apply app_eq_nil in V1 as [A V1]. apply app_eq_nil in V1 as [B C].
  unfold redis_validate in V2. apply app_eq_nil in V2 as [D E].
  unfold request_validate in V4. apply app_eq_nil in V4 as [F G].
  unfold complain in *.
  destruct (Z.leb_spec (raft_concurrency c) 1); [discriminate|].
  destruct (Z.leb_spec (raft_tick c) 0); [discriminate|].
  destruct (Z.leb_spec (raft_attest c) 0); [discriminate|].
  destruct (Z.leb_spec (req_handshake c) 0); [discriminate|].
  destruct (Z.leb_spec (req_socket c) 0); [discriminate|].
  split; [reflexivity|]. do 5 (split; [assumption|]).
  split; [intros N; rewrite N in D; discriminate|]. split.
  - intros S. unfold limit_validate in V3. rewrite S in V3. apply app_eq_nil in V3 as [X Y]. unfold complain in X, Y.
    destruct (Z.ltb_spec (limit_bucket c) 0); [discriminate|].
    destruct (Z.ltb_spec (limit_rate c) 0); [discriminate|]. split; assumption.
  - intros a Ha. destruct (Nat.eqb_spec (parts a) 2) as [?|N]; [assumption|]. exfalso.
    assert (I : In (BadAddr a) (flat_map (fun a => complain (negb (Nat.eqb (parts a) 2)) (BadAddr a)) (redis_addrs c))).
    { apply in_flat_map. exists a. split; [exact Ha|]. unfold complain.
      destruct (Nat.eqb_spec (parts a) 2); [contradiction|]. now left. }
    unfold complain in I. rewrite E in I. destruct I.
Qed.

(* Which accepted configurations do not do: exactly those with one of these
   four numbers out of range. *)
Theorem C94_what_is_not_checked_partial c :
  read c = Some c ->
  (works (start c) <-> 0 < raft_metrics c /\ 0 < live_period c /\ 0 < raft_refresh c /\ 0 < peer_buffer c) /\
  (start c = Crash <-> raft_metrics c <= 0 \/ live_period c <= 0 \/ peer_buffer c < 0).
Proof.
  intros H. apply read_some in H as [_ [H1 [H2 [H3 _]]]].
  unfold start, new_ticker, make_chan, tick_chan, works, queue_message.
  destruct (Z.leb_spec (raft_tick c) 0); [lia|]. cbn [bind].
  destruct (Z.leb_spec (raft_metrics c) 0); cbn [bind]; [split; split; intuition lia|].
  destruct (Z.leb_spec (raft_attest c) 0); [lia|]. cbn [bind].
  destruct (Z.leb_spec (live_period c) 0); cbn [bind]; [split; split; intuition lia|].
  destruct (Z.ltb_spec (peer_buffer c) 0); cbn [bind]; [split; split; intuition lia|].
  cbn. destruct (Z.leb_spec (raft_refresh c) 0); destruct (Z.ltb_spec 0 (peer_buffer c));
    (split; [split|split; intuition (discriminate || lia)]); intuition (congruence || lia).
Qed.

(* The check of the peer section, had it been asked, and two more numbers. *)
Theorem C94_with_the_peer_check_partial c :
  read c = Some c -> peer_validate c = [] -> 0 < raft_metrics c -> 0 < live_period c -> 0 < raft_refresh c ->
  works (start c).
Proof.
  intros H P. intros. apply (C94_what_is_not_checked_partial c H). unfold peer_validate in P.
  apply app_eq_nil in P as [P _]. unfold complain in P.
  destruct (Z.ltb_spec (peer_buffer c) 1); [discriminate|]. repeat split; auto. lia.
Qed.

(* So there are configurations that are accepted and stop the host: the check
   of the peer section exists and would refuse this one, but is not made. *)
Definition with_buffer (n : Z) (c : config) : config :=
  {| raft_tick := raft_tick c; raft_attest := raft_attest c; raft_metrics := raft_metrics c;
     raft_refresh := raft_refresh c; raft_concurrency := raft_concurrency c;
     redis_addrs := redis_addrs c; redis_password := redis_password c; redis_name := redis_name c;
     limit_skip := limit_skip c; limit_bucket := limit_bucket c; limit_rate := limit_rate c;
     limit_period := limit_period c; peer_min := peer_min c; peer_max := peer_max c;
     peer_abandon := peer_abandon c; peer_buffer := n; req_handshake := req_handshake c;
     req_socket := req_socket c; live_period := live_period c |}.
Theorem C94_accepted_but_stops_refuted n : n < 0 ->
  let c := with_buffer n (default 8) in
  read c = Some c /\ peer_validate c <> [] /\ start c = Crash.
Proof.
  intros Hn c. split; [reflexivity|]. split.
  - unfold peer_validate, c. cbn [peer_buffer with_buffer]. destruct (Z.ltb_spec n 1); [discriminate|lia].
  - unfold start. cbn. unfold make_chan. destruct (Z.ltb_spec n 0); [reflexivity|lia].
Qed.
(* Or with which a message to a peer is never queued. *)
Theorem C94_accepted_but_mute_refuted :
  let c := with_buffer 0 (default 8) in
  read c = Some c /\ peer_validate c <> [] /\
  exists s, start c = Ret s /\ forall waiting, 0 <= waiting -> queue_message s waiting = false.
Proof.
  split; [reflexivity|]. split; [discriminate|]. eexists. split; [reflexivity|].
  intros w Hw. unfold queue_message. cbn. destruct (Z.ltb_spec w 0); [lia|reflexivity].
Qed.

(* The default works, except on a machine with one processor, where the host
   refuses its own default. *)
Theorem C94_default cpus : 1 <= cpus ->
  (2 <= cpus -> read (default cpus) = Some (default cpus) /\ works (start (default cpus))) /\
  (cpus = 1 -> read (default cpus) = None).
Proof.
  intros H. split; [|intros ->; reflexivity]. intros H2.
  assert (R : read (default cpus) = Some (default cpus)).
  { unfold read, validate, raft_validate. cbn [default raft_concurrency raft_tick raft_attest].
    destruct (Z.leb_spec (Z.min cpus 64) 1); [lia|]. reflexivity. }
  split; [exact R|]. apply (C94_what_is_not_checked_partial _ R). repeat split; reflexivity.
Qed.

(* C95.  Printed through a pointer, as the method is made for, the section does
   not tell the password. *)
Definition with_password (p : bytes) (c : config) : config :=
  {| raft_tick := raft_tick c; raft_attest := raft_attest c; raft_metrics := raft_metrics c;
     raft_refresh := raft_refresh c; raft_concurrency := raft_concurrency c;
     redis_addrs := redis_addrs c; redis_password := p; redis_name := redis_name c;
     limit_skip := limit_skip c; limit_bucket := limit_bucket c; limit_rate := limit_rate c;
     limit_period := limit_period c; peer_min := peer_min c; peer_max := peer_max c;
     peer_abandon := peer_abandon c; peer_buffer := peer_buffer c; req_handshake := req_handshake c;
     req_socket := req_socket c; live_period := live_period c |}.
Theorem C95_hidden_through_a_pointer_partial address str top c p q :
  show address top (GPtr (redis_value OnPointer str (with_password p c))) =
  show address top (GPtr (redis_value OnPointer str (with_password q c))).
Proof. reflexivity. Qed.
(* Had the method a value as its receiver, the whole configuration would not
   tell it either, as a value or through a pointer. *)
Theorem C95_hidden_with_a_value_receiver_partial address str before after top c p q :
  show address top (config_value OnValue str before after (with_password p c)) =
  show address top (config_value OnValue str before after (with_password q c)) /\
  show address true (GPtr (config_value OnValue str before after (with_password p c))) =
  show address true (GPtr (config_value OnValue str before after (with_password q c))).
Proof. unfold config_value. cbn [show]. rewrite !flat_map_app. split; reflexivity. Qed.

(* But the host logs the configuration as a value: whatever the password is,
   the line it writes as it starts contains it, with the name of the field. *)
Theorem C95_password_is_logged_refuted address str before after c :
  exists pre post, log_line address str before after c =
    pre ++ [80; 97; 115; 115; 119; 111; 114; 100; 58]%N ++ redis_password c ++ post.
Proof.
  unfold log_line, config_value. cbn [show]. rewrite !flat_map_app.
  cbn [flat_map fst snd redis_value show].
  set (B := flat_map _ before).
  exists ([123%N] ++ B ++ [82; 101; 100; 105; 115; 58; 123; 65; 100; 100; 114; 115; 58]%N ++ concat (redis_addrs c) ++ [32%N]).
  eexists. rewrite <- !app_assoc. cbn [app]. rewrite <- ?app_assoc. cbn [app]. reflexivity.
Qed.

(* Logging a pointer to the whole configuration would not help: the section is
   still a value in it. *)
Theorem C95_pointer_to_the_whole_refuted address str before after c :
  exists pre post, show address true (GPtr (config_value OnPointer str before after c)) =
    pre ++ [80; 97; 115; 115; 119; 111; 114; 100; 58]%N ++ redis_password c ++ post.
Proof.
  destruct (C95_password_is_logged_refuted address str before after c) as (pre & post & E).
  exists (38%N :: pre), post. exact (f_equal (cons 38%N) E).
Qed.

(* A case: eight processors, a password of three bytes. *)
Example C95_case : exists post, log_line (fun _ => []) (fun _ _ => [42%N]) [] [] (with_password [1; 2; 3]%N (default 8)) =
  [123; 82; 101; 100; 105; 115; 58; 123; 65; 100; 100; 114; 115; 58]%N ++
  [108; 111; 99; 97; 108; 104; 111; 115; 116; 58; 54; 51; 55; 57]%N ++ [32%N] ++
  [80; 97; 115; 115; 119; 111; 114; 100; 58]%N ++ [1; 2; 3]%N ++ post.
Proof. eexists. reflexivity. Qed.
Example C94_case : read (default 8) = Some (default 8) /\ peer_validate (default 8) = [] /\ works (start (default 8)).
Proof. split; [reflexivity|]. split; [reflexivity|]. apply (proj1 (C94_default 8 ltac:(lia))). lia. Qed.

Print Assumptions C94_what_is_not_checked_partial.
Print Assumptions C94_with_the_peer_check_partial.
Print Assumptions C94_accepted_but_stops_refuted.
Print Assumptions C94_accepted_but_mute_refuted.
Print Assumptions C94_default.
Print Assumptions C95_hidden_through_a_pointer_partial.
Print Assumptions C95_hidden_with_a_value_receiver_partial.
Print Assumptions C95_pointer_to_the_whole_refuted.
Print Assumptions C95_password_is_logged_refuted.
