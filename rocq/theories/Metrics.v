(* Metrics: the enclave's counters, enclave/metrics/metrics.{h,cc} and
   counters.h, and what the host makes of them, host/dispatch/metrics.go.
   Simplified: gauges are left out (the host writes each as it is); a map of
   tags is the list of its entries, sorted; the sink that the host writes to
   sums what it is given, here over all values of the labels that the host adds
   to each counter (its id and its role in the group, metrics.go:95-104). *)
From Verif Require Import Base.
From Coq Require Import String.
Open Scope string_scope.
Open Scope list_scope.
Open Scope N_scope.

(* A counter's name and its tags. *)
Definition key := (string * list (string * string))%type.
Definition tag_eqb (a b : string * string) : bool :=
  ((fst a =? fst b)%string && (snd a =? snd b)%string)%bool.
(* cmp.Equal of two maps of strings. *)
Fixpoint tags_eqb (a b : list (string * string)) : bool :=
  match a, b with
  | [], [] => true
  | x :: a', y :: b' => (tag_eqb x y && tags_eqb a' b')%bool
  | _, _ => false
  end.
Definition key_eqb (a b : key) : bool := ((fst a =? fst b)%string && tags_eqb (snd a) (snd b))%bool.

(* metrics.proto U64PB: a counter as it is sent. *)
Record u64pb := U64 { u_key : key; u_v : N }.

(* metrics/counters.h with metrics.cc:92-96: the counters, "ns.name". *)
Definition table : list key := [
  ("ecalls.host_messages_received", []);
  ("ecalls.host_bytes_received", []);
  ("ecalls.init_calls", []);
  ("sender.enclave_messages_sent", []);
  ("sender.enclave_bytes_sent", []);
  ("core.msgs_received", [("type", "host_request")]);
  ("core.msgs_received", [("type", "peer_message")]);
  ("core.msgs_received", [("type", "timer_tick")]);
  ("core.msgs_received", [("type", "invalid")]);
  ("core.new_clients", [("outcome", "success")]);
  ("core.new_clients", [("outcome", "failure")]);
  ("core.log_transactions", [("outcome", "success")]);
  ("core.log_transactions", [("outcome", "cancelled")]);
  ("core.host_delete", [("outcome", "success")]);
  ("core.host_delete", [("outcome", "failure")]);
  ("core.client_transaction", [("method", "raft"); ("outcome", "success")]);
  ("core.client_transaction", [("method", "raft"); ("outcome", "cancelled")]);
  ("core.client_transaction", [("method", "raft"); ("outcome", "error")]);
  ("core.client_transaction", [("method", "raft"); ("outcome", "invalid")]);
  ("core.client_transaction", [("method", "raft"); ("outcome", "dne")]);
  ("core.client_transaction", [("method", "raft"); ("outcome", "effect2response")]);
  ("core.client_transaction", [("method", "raft"); ("outcome", "encrypterr")]);
  ("core.client_transaction", [("method", "clientstate"); ("outcome", "success")]);
  ("core.client_transaction", [("method", "clientstate"); ("outcome", "error")]);
  ("core.client_transaction", [("method", "clientstate"); ("outcome", "encrypterr")]);
  ("core.raft_log_applied", []);
  ("client.created", []);
  ("client.closed", []);
  ("client.new_dh_state", []);
  ("client.key_rotate", [("outcome", "success")]);
  ("client.key_rotate", [("outcome", "failure")]);
  ("client.attestation_refresh", [("outcome", "success")]);
  ("client.attestation_refresh", [("outcome", "failure")]);
  ("peers.attestation_refresh", [("outcome", "success")]);
  ("peers.attestation_refresh", [("outcome", "failure")]);
  ("raft.logs_committed", []);
  ("raft.logs_promised", []);
  ("raft.msgs_received", [("type", "vote_request")]);
  ("raft.msgs_received", [("type", "vote_response")]);
  ("raft.msgs_received", [("type", "append_request")]);
  ("raft.msgs_received", [("type", "append_response")]);
  ("raft.msgs_received", [("type", "timeout_now")]);
  ("raft.msgs_received", [("type", "invalid")]);
  ("raft.term_updated", []);
  ("raft.term_increments", []);
  ("raft.logs_appended", [("outcome", "success")]);
  ("raft.logs_appended", [("outcome", "failure")]);
  ("raft.election_timeouts", []);
  ("raft.appendentries_send", [("outcome", "nomsg")]);
  ("raft.appendentries_send", [("outcome", "inflight_send")]);
  ("raft.appendentries_send", [("outcome", "inflight_defer")]);
  ("raft.appendentries_send", [("outcome", "send")]);
  ("timeout.timeouts_created", []);
  ("timeout.timeouts_completed", [("outcome", "run")]);
  ("timeout.timeouts_completed", [("outcome", "cancelled")]);
  ("db.guess_limit_reached", []);
  ("db2.ops", [("type", "backup")]);
  ("db2.ops", [("type", "restore")]);
  ("db2.ops", [("type", "delete")]);
  ("db2.ops", [("type", "expose")]);
  ("db2.ops", [("type", "tries")]);
  ("db2.ops", [("type", "unknown")]);
  ("db3.ops", [("type", "create")]);
  ("db3.ops", [("type", "evaluate")]);
  ("db3.ops", [("type", "remove")]);
  ("db3.ops", [("type", "query")]);
  ("db4.ops", [("type", "create")]);
  ("db4.ops", [("type", "restore1")]);
  ("db4.ops", [("type", "restore2")]);
  ("db4.ops", [("type", "remove")]);
  ("db4.ops", [("type", "query")]);
  ("db4.ops", [("type", "rotate_start")]);
  ("db4.ops", [("type", "rotate_commit")]);
  ("db4.ops", [("type", "rotate_rollback")]);
  ("db4.client_errors", [("err", "UNKNOWN")]);
  ("db4.client_errors", [("err", "UNSET")]);
  ("db4.client_errors", [("err", "OK")]);
  ("db4.client_errors", [("err", "INVALID_REQUEST")]);
  ("db4.client_errors", [("err", "MISSING")]);
  ("db4.client_errors", [("err", "ERROR")]);
  ("db4.client_errors", [("err", "RESTORE1_MISSING")]);
  ("db4.client_errors", [("err", "VERSION_MISMATCH")]);
  ("db4.client_errors", [("err", "NOT_ROTATING")]);
  ("db4.client_errors", [("err", "ALREADY_ROTATING")]);
  ("db4.client_errors", [("err", "MERKLE_FAILURE")]);
  ("db5.ops", [("type", "upload")]);
  ("db5.ops", [("type", "download")]);
  ("db5.ops", [("type", "purge")]);
  ("db5.ops", [("type", "unknown")]);
  ("merkle.nodes", []);
  ("merkle.leaves", []);
  ("socketwrap.bytes_written", []);
  ("socketwrap.bytes_read", []);
  ("socketwrap.msgs_written", []);
  ("socketwrap.msgs_read", []);
  ("socketwrap.writeall_calls", []);
  ("socketwrap.send_calls", []);
  ("socketwrap.recv_calls", []);
  ("socketwrap.write_buffer_shrinks", []);
  ("context.cpu", [("action", "uncategorized"); ("in", "uncategorized")]);
  ("context.cpu", [("action", "encrypt"); ("in", "client")]);
  ("context.cpu", [("action", "decrypt"); ("in", "client")]);
  ("context.cpu", [("action", "hs_start"); ("in", "client")]);
  ("context.cpu", [("action", "hs_finish"); ("in", "client")]);
  ("context.cpu", [("action", "encrypt"); ("in", "peer")]);
  ("context.cpu", [("action", "decrypt"); ("in", "peer")]);
  ("context.cpu", [("action", "connect"); ("in", "peer")]);
  ("context.cpu", [("action", "connect2"); ("in", "peer")]);
  ("context.cpu", [("action", "accept"); ("in", "peer")]);
  ("context.cpu", [("action", "client_request"); ("in", "db")]);
  ("context.cpu", [("action", "repl_send"); ("in", "db")]);
  ("context.cpu", [("action", "repl_recv"); ("in", "db")]);
  ("context.cpu", [("action", "hash"); ("in", "db")]);
  ("context.cpu", [("action", "repl_merkle_hash"); ("in", "db")]);
  ("context.cpu", [("action", "repl_merkle_update"); ("in", "db")]);
  ("context.cpu", [("action", "new_keys"); ("in", "db3")]);
  ("context.cpu", [("action", "blind_evaluate"); ("in", "db3")]);
  ("context.cpu", [("action", "client_msg"); ("in", "core")]);
  ("context.cpu", [("action", "peer_msg"); ("in", "core")]);
  ("context.cpu", [("action", "peer_rst"); ("in", "core")]);
  ("context.cpu", [("action", "host_msg"); ("in", "core")]);
  ("context.cpu", [("action", "raft_msg"); ("in", "core")]);
  ("context.cpu", [("action", "e2e_txn_req"); ("in", "core")]);
  ("context.cpu", [("action", "e2e_txn_resp"); ("in", "core")]);
  ("context.cpu", [("action", "repl_send"); ("in", "core")]);
  ("context.cpu", [("action", "repl_recv"); ("in", "core")]);
  ("context.cpu", [("action", "committed_logs"); ("in", "core")]);
  ("context.cpu", [("action", "timer_tick"); ("in", "core")]);
  ("context.cpu", [("action", "host_db_req"); ("in", "core")]);
  ("context.cpu", [("action", "metrics"); ("in", "core")]);
  ("context.cpu", [("action", "connecting_to_raft_members"); ("in", "core")]);
  ("context.cpu", [("action", "updating_group_time"); ("in", "core")]);
  ("context.cpu", [("action", "raft_tick"); ("in", "core")]);
  ("context.cpu", [("action", "update_env_stats"); ("in", "core")]);
  ("context.cpu", [("action", "update_last_applied_merkle"); ("in", "core")]);
  ("context.cpu", [("action", "verify_last_applied_merkle"); ("in", "core")]);
  ("context.cpu", [("action", "merkle_update"); ("in", "raft")]);
  ("context.cpu", [("action", "merkle_verify"); ("in", "raft")]);
  ("context.cpu", [("action", "test_database_entries"); ("in", "core")]);
  ("context.cpu", [("action", "attest"); ("in", "env")]);
  ("context.cpu", [("action", "evidence"); ("in", "env")]);
  ("context.cpu", [("action", "sendmessage"); ("in", "env")]);
  ("context.cpu", [("action", "serialize"); ("in", "sender")]);
  ("context.cpu", [("action", "send"); ("in", "sender")]);
  ("context.cpu", [("action", "read_recv"); ("in", "socketwrap")]);
  ("context.cpu", [("action", "read_parse"); ("in", "socketwrap")]);
  ("context.cpu", [("action", "write_serialize"); ("in", "socketwrap")]);
  ("context.cpu", [("action", "write_send"); ("in", "socketwrap")]);
  ("context.cpu", [("action", "timer_tick"); ("in", "timeout")]);
  ("context.cpu", [("action", "lock"); ("in", "core"); ("lock", "core_raft")]);
  ("context.cpu", [("action", "lock"); ("in", "core"); ("lock", "core_log_txns")]);
  ("context.cpu", [("action", "lock"); ("in", "core"); ("lock", "core_e2e_txns")]);
  ("context.cpu", [("action", "lock"); ("in", "core"); ("lock", "core_config")]);
  ("context.cpu", [("action", "lock"); ("in", "groupclock"); ("lock", "groupclock")]);
  ("context.cpu", [("action", "lock"); ("in", "timeout"); ("lock", "timeout")]);
  ("context.cpu", [("action", "lock"); ("in", "peer"); ("lock", "peermanager")]);
  ("context.cpu", [("action", "lock"); ("in", "peer"); ("lock", "peer")]);
  ("context.cpu", [("action", "lock"); ("in", "client"); ("lock", "clientmanager")]);
  ("context.cpu", [("action", "lock"); ("in", "client"); ("lock", "client")]);
  ("context.cpu", [("in", "test")]);
  ("context.cpu", [("action", "lock"); ("in", "socketwrap"); ("lock", "read")]);
  ("context.cpu", [("action", "lock"); ("in", "socketwrap"); ("lock", "write")]);
  ("context.cpu", [("action", "lock"); ("in", "envtest"); ("lock", "sendmessage")]);
  ("context.cpu", [("action", "lock"); ("in", "minimums"); ("lock", "updateset")]);
  ("context.cpu", [("action", "lock"); ("in", "minimums"); ("lock", "updatevalue")]);
  ("context.cpu", [("action", "lock"); ("in", "minimums"); ("lock", "checkvalues")]);
  ("context.cpu", [("action", "lock"); ("in", "minimums"); ("lock", "copyvalues")])
].

(* metrics.cc:19-21: the counter of an error; [names] are the error codes'
   names. *)
Definition err_key (name : string) : key := ("errors", [("error", name)]).

(* metrics.cc:13-34 AllAsPB (counters): errors only if they happened, all
   others always. [v] is what the atomic variables hold; each is read once. *)
Definition all_as_pb (names : list string) (v : key -> N) : list u64pb :=
  map (fun k => U64 k (v k)) (filter (fun k => 0 <? v k) (map err_key names)) ++
  map (fun k => U64 k (v k)) table.

(* dispatch/metrics.go:36-47 findPrevCounter: among the counters of that name
   in the last snapshot, the first with these tags. The map of slices by name
   (lines 66-71) holds just the last snapshot's counters, in its order. *)
Definition find_prev (prev : list u64pb) (k : key) : option u64pb :=
  find (fun p => key_eqb (u_key p) k) prev.

(* uint64 difference, then int64(..). *)
Definition int64_diff (a b : N) : Z :=
  let d := (a + 2 ^ 64 - b) mod 2 ^ 64 in
  if d <? 2 ^ 63 then Z.of_N d else (Z.of_N d - 2 ^ 64)%Z.

(* float32(..) of an integer: 24 significant bits, nearest, ties to even. *)
Definition f32 (z : Z) : Z :=
  let a := Z.abs z in
  let m := (2 ^ Z.max 0 (Z.log2 a - 23))%Z in
  let q := (a / m)%Z in
  let r := (a mod m)%Z in
  let q' := if (2 * r <? m)%Z then q else if (m <? 2 * r)%Z then (q + 1)%Z
            else if Z.even q then q else (q + 1)%Z in
  (Z.sgn z * (q' * m))%Z.

(* metrics.go:56-64: what is written to the sink for one counter. *)
Definition write_one (prev : list u64pb) (c : u64pb) : key * Z :=
  (u_key c,
   match find_prev prev (u_key c) with
   | None => f32 (Z.of_N (u_v c))
   | Some p => f32 (int64_diff (u_v c) (u_v p))
   end).

(* metrics.go:52-72 updateMetrics (counters): the sink's state is all that was
   written; the snapshot is kept. *)
Definition update (s : list u64pb * list (key * Z)) (snap : list u64pb) : list u64pb * list (key * Z) :=
  (snap, snd s ++ map (write_one (fst s)) snap).

(* dispatcher.go:232-279 metricLoop: a poll after a poll; one that failed
   changes nothing (lines 272-273). *)
Definition polls (snaps : list (option (list u64pb))) : list u64pb * list (key * Z) :=
  fold_left (fun s o => match o with Some p => update s p | None => s end) snaps ([], []).

(* What the sink's sum for a counter is. *)
Definition reported (w : list (key * Z)) (k : key) : Z :=
  fold_right Z.add 0%Z (map snd (filter (fun x => key_eqb (fst x) k) w)).
