(* The locks of an enclave: which function takes which lock, in what order, and what it
   does while it holds them (core/core.cc, peers/peers.cc, client/client.cc,
   timeout/timeout.cc, minimums/minimums.{h,cc}, groupclock/groupclock.cc, db/db4.cc,
   socketwrap/socket.cc, socketmain/socketmain.cc).

   A function is a program over locks.  What is decided by data that is not modelled is
   left open ([Any]): every outcome is possible.  What is modelled are the connections to
   peers, the requests to peers that are under way with what is to be done when they end,
   and for every state transfer whether its end was already told (sent_response).  Loops
   end after some number of rounds, which is left open.

   Simplifications: the LOG and COUNTED_ERROR lines of a section are one, at its
   beginning; a message is taken from the socket when it is there (no waiting for input
   while read_mu_ is held); waiting on condition variables is left out, and so are fatal
   errors, which end the process. *)
From Verif Require Export Base.
Open Scope N_scope.

Inductive lock :=
| LRead               (* socketwrap/socket.h:79 read_mu_ *)
| LWrite              (* socketwrap/socket.h:80 write_mu_ *)
| LRaft               (* core/internal.h:73 raft_.mu *)
| LE2E                (* core/core.h:305 e2e_txn_mu_ *)
| LLog                (* core/core.h:293 outstanding_log_transactions_mu_ *)
| LConfig             (* core/core.h:241 config_mu_ *)
| LTimeout            (* timeout/timeout.h:56 *)
| LPeers              (* peers/peers.h:260, the manager's *)
| LPeer (p : N)       (* peers/peers.h:141, one per peer *)
| LMin (i : N)        (* minimums/minimums.h:52; 0 is the core's, others are of copies *)
| LClients            (* client/client.h:84, the manager's *)
| LClient (c : N)     (* client/client.h:54, one per client *)
| LState (c : N)      (* db/db4.h:57, one per client *)
| LClock              (* groupclock/groupclock.h:30 *)
| LOut.               (* socketwrap/socket.h:49 WriteQueue::mu_ *)

(* What is done when a request to a peer ends (the callbacks given to SendE2ETransaction) *)
Inductive cb :=
| CbReply                                  (* core.cc:250-253, 280-283, 855-858: tell the host *)
| CbTime                                   (* core.cc:1726-1732 *)
| CbGetRaft (p : N)                        (* core.cc:526-591 *)
| CbLoad                                   (* core.cc:627-646 *)
| CbMember                                 (* core.cc:693-711 *)
| CbWrite (client : option N)              (* core.cc:1700-1717; None: the host's own request *)
| CbPush (push to : N) (last : bool).      (* core.cc:1329-1347 *)

Record data := Data {
  conn : list N;                           (* peers in state PEER_CONNECTED *)
  calls : list (N * (N * cb));             (* outstanding_e2e_transactions_: number, peer, what then *)
  next_call : N;
  told : list N;                           (* transfers with sent_response set *)
  next_push : N;
}.
Definition data0 : data := Data [] [] 0 [] 0.

Inductive prog :=
| Done
| Lock (l : lock) (k : prog)
| Unlock (l : lock) (k : prog)
| Any (k : nat -> prog)
| Op {A : Set} (f : data -> data * A) (k : A -> prog)
(* core.cc:1333: sent_response.exchange(true), whose caller has just seen it false; true
   if it was still false *)
| Exchange (push : N) (k : bool -> prog).

(* Forms.  [k] is what follows. *)
Definition either (p q : prog) : prog := Any (fun n => match n with O => p | _ => q end).
Definition decide (k : bool -> prog) : prog := either (k true) (k false).
Definition maybe (p : prog -> prog) (k : prog) : prog := either k (p k).
Definition times (p : prog -> prog) (k : prog) : prog := Any (fun n => Nat.iter n p k).
Definition some_id (f : N -> prog) : prog := Any (fun n => f (N.of_nat n)).
Definition each (f : N -> prog -> prog) (k : prog) : prog := times (fun k' => some_id (fun p => f p k')) k.

(* socket.cc:105-133 WriteQueue::WritePB; sender.cc:11-23 Send; env/socket/socket.cc:69-82 *)
Definition out (k : prog) : prog := Lock LOut (Unlock LOut k).
(* util/log.cc:22-28, log.h: only if the level is set *)
Definition log (k : prog) : prog := maybe out k.
(* context.h:95-105 ACQUIRE_LOCK, to the end of its scope; the body hands on a result *)
Definition lockedr {A : Set} (l : lock) (body : (A -> prog) -> prog) (k : A -> prog) : prog :=
  Lock l (log (body (fun a => Unlock l (k a)))).
Definition locked (l : lock) (body : prog -> prog) (k : prog) : prog := Lock l (log (body (Unlock l k))).
Definition touch (l : lock) (k : prog) : prog := locked l (fun k => k) k.

(* data *)
Definition is_in (x : N) (l : list N) : bool := existsb (N.eqb x) l.
Definition drop (x : N) (l : list N) : list N := filter (fun y => negb (y =? x)) l.
Definition connected (p : N) (d : data) : data * bool := (d, is_in p (conn d)).
Definition set_conn (p : N) (c : bool) (d : data) : data * unit :=
  (Data (if c then p :: drop p (conn d) else drop p (conn d)) (calls d) (next_call d) (told d) (next_push d), tt).
Definition add_call (to : N) (c : cb) (d : data) : data * unit :=
  (Data (conn d) ((next_call d, (to, c)) :: calls d) (next_call d + 1) (told d) (next_push d), tt).
(* the call with that number, if it is to that peer, when that is asked for *)
Definition take_call (tx : N) (from : option N) (d : data) : data * option cb :=
  match find (fun x => fst x =? tx) (calls d) with
  | Some (_, (to, c)) =>
      if match from with Some p => p =? to | None => true end
      then (Data (conn d) (filter (fun x => negb (fst x =? tx)) (calls d)) (next_call d) (told d) (next_push d), Some c)
      else (d, None)
  | None => (d, None)
  end.
(* all calls to a peer *)
Definition take_calls (p : N) (d : data) : data * list cb :=
  (Data (conn d) (filter (fun x => negb (fst (snd x) =? p)) (calls d)) (next_call d) (told d) (next_push d),
   map (fun x => snd (snd x)) (filter (fun x => fst (snd x) =? p) (calls d))).
Definition new_push (d : data) : data * N :=
  (Data (conn d) (calls d) (next_call d) (told d) (next_push d + 1), next_push d).
Definition is_told (push : N) (d : data) : data * bool := (d, is_in push (told d)).
(* sent_response.exchange(true) in the last callback *)
Definition tell (push : N) (d : data) : data * bool :=
  (Data (conn d) (calls d) (next_call d) (push :: drop push (told d)) (next_push d), negb (is_in push (told d))).

(* timeout.cc:30-58, 60-70 *)
Definition set_timeout (k : prog) : prog := touch LTimeout k.
Definition cancel_timeout (k : prog) : prog := touch LTimeout k.
(* core.cc:181-186 *)
Definition enclave_config (k : prog) : prog := touch LConfig k.
(* minimums.cc:11-47, 49-53, 62-65 *)
Definition min_update (i : N) (k : prog) : prog := touch (LMin i) k.
Definition min_current (k : prog) : prog := touch (LMin 0) k.
Definition min_check (i : N) (k : bool -> prog) : prog := touch (LMin i) (decide k).
(* groupclock.cc:16-19, 21-47 *)
Definition set_remote_time (k : prog) : prog := touch LClock k.
Definition get_time (k : prog) : prog := touch LClock k.

(* peers.cc:71-99 Send; 379-385: SendRst is one message *)
Definition peer_send (p : N) (k : bool -> prog) : prog :=
  lockedr (LPeer p) (fun ret => Op (connected p) (fun c =>
    if c then either (out (ret true)) (Op (set_conn p false) (fun _ => out (ret false)))
    else ret false)) k.
(* peers.cc:218-239, 241-288 *)
Definition peer_connect (p : N) (k : bool -> prog) : prog :=
  lockedr (LPeer p) (fun ret => either (Op (set_conn p false) (fun _ => out (ret true))) (ret false)) k.
(* peers.cc:289-371: Accept; true: connected now *)
Definition peer_accept (p : N) (k : bool -> prog) : prog :=
  lockedr (LPeer p) (fun ret => Op (set_conn p false) (fun _ =>
    either (ret false) (min_check 0 (fun ok =>
      if ok then either (ret false) (Op (set_conn p true) (fun _ => out (ret true))) else ret false)))) k.
(* peers.cc:373-377 *)
Definition peer_disconnect (p : N) (k : prog) : prog :=
  locked (LPeer p) (fun k => Op (set_conn p false) (fun _ => out k)) k.
(* peers.cc:379-382 *)
Definition peer_state (p : N) (k : bool -> prog) : prog := lockedr (LPeer p) (fun ret => Op (connected p) ret) k.
(* peers.cc:454-470 *)
Definition peer_too_old (p : N) (k : prog) : prog :=
  locked (LPeer p) (maybe (fun k => Op (set_conn p false) (fun _ => out k))) k.
(* peers.cc:472-476 *)
Definition peer_status (p : N) (k : prog) : prog := touch (LPeer p) k.
(* peers.cc:478-488; a failure is logged with the limits, minimums.cc:108-112 *)
Definition peer_check_minimums (p i : N) (k : bool -> prog) : prog :=
  lockedr (LPeer p) (fun ret => either (ret true) (min_check i (fun ok => if ok then ret true else touch (LMin i) (ret false)))) k.

(* What a peer sends (e2e.proto) *)
Inductive request :=
| RPing | RGetRaft | RReplicate | RPush | RMembership | RVoting | RWrite | RTime | RRemoval | ROther.
Inductive e2e :=
| EConnected | EAttestation | ERaft | ERequest (r : request) | EResponse (tx : N) (ok : bool) | EOther.
Inductive peer_msg := PSyn | PSynack | PData (e : e2e) | PRst | POther.

(* peers.cc:101-166, 168-216, 437-451; the result is what was decoded *)
Definition peer_recv (p : N) (m : peer_msg) (k : option e2e -> prog) : prog :=
  let fail ret := Op (set_conn p false) (fun _ => out (ret None)) in
  lockedr (LPeer p) (fun ret =>
    match m with
    | PSynack =>
        either (fail ret) (min_check 0 (fun ok =>
          if ok then either (fail ret) (Op (set_conn p true) (fun _ => ret (Some EConnected))) else fail ret))
    | PData e =>
        Op (connected p) (fun c =>
          if negb c then fail ret
          else either (fail ret)
               (match e with
                | EAttestation => either (fail ret) (min_check 0 (fun ok => if ok then ret None else fail ret))
                | _ => ret (Some e)
                end))
    | PRst => Op (set_conn p false) (fun _ => ret None)
    | _ => ret None
    end) k.

(* peers.cc:497-504 *)
Definition pm_peer_state (p : N) (k : bool -> prog) : prog := lockedr LPeers (fun ret => either (ret false) (peer_state p ret)) k.
(* peers.cc:543-570 *)
Definition pm_refresh (k : prog) : prog :=
  either k (locked LPeers (each (fun p k => peer_state p (fun c => if c then peer_send p (fun _ => k) else k))) k).
(* peers.cc:572-589 CreatePeer, GetPeer; 592-600 GetPeerOrRst; 603-609 ConnectionArgs *)
Definition pm_create (k : prog) : prog := touch LPeers k.
Definition pm_get (k : bool -> prog) : prog := touch LPeers (decide k).
Definition pm_get_or_rst (k : bool -> prog) : prog := lockedr LPeers (fun ret => either (ret true) (out (ret false))) k.
Definition pm_args (k : prog) : prog := touch LPeers k.
(* peers.cc:611-638 *)
Definition pm_connect (p : N) (k : bool -> prog) : prog := pm_create (pm_args (peer_connect p k)).
Definition pm_maybe_connect (p : N) (k : bool -> prog) : prog :=
  pm_create (pm_args (either (touch (LPeer p) (k true)) (peer_connect p k))).
(* peers.cc:640-653 *)
Definition pm_reset (p : N) (k : prog) : prog := pm_get_or_rst (fun f => if f then peer_disconnect p k else k).
(* peers.cc:655-670 *)
Definition send_to_peer (p : N) (k : bool -> prog) : prog := pm_get_or_rst (fun f => if f then peer_send p k else k false).
(* peers.cc:672-698 *)
Definition recv_from_peer (p : N) (m : peer_msg) (k : option e2e -> prog) : prog :=
  match m with
  | PSyn => pm_create (pm_args (peer_accept p (fun ok => k (if ok then Some EConnected else None))))
  | PRst => pm_get (fun f => if f then peer_recv p m k else k None)
  | _ => pm_get_or_rst (fun f => if f then peer_recv p m k else k None)
  end.
(* peers.cc:700-709, 711-718 *)
Definition connected_peers (k : prog) : prog := locked LPeers (each (fun p k => peer_state p (fun _ => k))) k.
Definition all_peers (k : prog) : prog := touch LPeers k.
(* peers.cc:720-735 *)
Definition set_attestation_time (k : prog) : prog := either k (locked LPeers (each peer_too_old) k).
(* peers.cc:737-744, 746-755, 757-761 *)
Definition minimums_updated (k : prog) : prog :=
  locked LPeers (each (fun p k => peer_check_minimums p 0 (fun ok => if ok then k else peer_disconnect p k))) k.
Definition check_peer_minimums (i : N) (k : bool -> prog) : prog :=
  locked LPeers (each (fun p k => peer_check_minimums p i (fun _ => k))) (decide k).
Definition pm_status (p : N) (k : prog) : prog := pm_get (fun f => if f then peer_status p k else k).

(* client.cc:267-270; 59-85 Init; 158-174 NewClient *)
Definition client_args (k : prog) : prog := touch LClients k.
Definition new_client (k : bool -> prog) : prog :=
  client_args (some_id (fun c => touch (LClient c) (either (k false) (touch LClients (k true))))).
(* client.cc:176-182, 184-192 *)
Definition get_client (k : bool -> prog) : prog := touch LClients (decide k).
Definition remove_client (k : prog) : prog := touch LClients k.
(* client.cc:208-226, 228-251 *)
Definition rotate_key (k : prog) : prog := either k (touch LClients k).
Definition client_refresh (k : prog) : prog := client_args (either k (touch LClients k)).

(* core.cc ReplyWithError: a message *)
Definition reply (k : prog) : prog := out k.
(* core.cc:1747-1757 *)
Definition send_e2e_error (p : N) (k : prog) : prog := log (send_to_peer p (fun _ => k)).

(* What waits for an entry of the log (the callbacks given to AddLogTransaction) *)
Inductive log_cb :=
| LcClient (c : N)    (* core.cc:1619-1676 *)
| LcReply             (* core.cc:787-797, 831-837, 900-905 *)
| LcMember            (* core.cc:698-709 *)
| LcRemoval (p : N).  (* core.cc:1565-1571 *)
(* core.cc:1619-1676 ClientLogTransaction; db4.cc:151-170 ResponseFromEffect *)
Definition run_client (c : N) (k : prog) : prog :=
  let fail := reply (remove_client k) in
  either fail (get_client (fun f =>
    if f then maybe (touch (LState c)) (touch (LClient c) (either fail (out k))) else fail)).
Definition run_log (l : log_cb) (k : prog) : prog :=
  match l with
  | LcClient c => run_client c k
  | LcReply => reply k
  | LcMember => maybe cancel_timeout (reply k)
  | LcRemoval p => send_e2e_error p k
  end.
Definition some_log_cb (f : log_cb -> prog) : prog :=
  some_id (fun x => either (f (LcClient x)) (either (f LcReply) (either (f LcMember) (f (LcRemoval x))))).
(* core.cc:1609-1617 *)
Definition add_log (k : prog) : prog := touch LLog k.
(* the loop of core.cc:1835-1841 and of core.cc:1913-1926 *)
Definition run_logs (k : prog) : prog := locked LLog (times (fun k => some_log_cb (fun l => run_log l k))) k.

(* core.cc:947-968; 970-998 *)
Definition update_group_time (k : prog) : prog :=
  let round k := connected_peers (get_time (set_attestation_time k)) in round (times round k).
(* core.cc:1008-1020 *)
Definition connect_to_members (k : prog) : prog := each (fun p k => pm_maybe_connect p (fun _ => k)) k.
(* core.cc:1584-1607 *)
Definition raft_send_messages (k : prog) : prog := each (fun p k => send_to_peer p (fun _ => k)) k.
(* core.cc:1825-1857 *)
Definition membership_change (k : prog) : prog := log (maybe run_logs (update_group_time k)).
(* core.cc:1859-1885 *)
Definition minimums_change (k : prog) : prog := min_update 0 (minimums_updated (min_current (client_refresh k))).
(* core.cc:1785-1823; 1904-1928 *)
Definition committed_entry (k : prog) : prog :=
  log (either (run_logs k) (either (membership_change (run_logs k)) (minimums_change (run_logs k)))).
Definition raft_committed (k : prog) : prog := times committed_entry k.
(* core.cc:1575-1580 *)
Definition raft_step (k : prog) : prog := raft_send_messages (raft_committed k).

(* core.cc:1329-1347.  [next] is what SendNextReplicationState does, with the lock held. *)
Definition push_done (push to : N) (last ok : bool) (next : prog -> prog) (k : prog) : prog :=
  let rest := locked LRaft (fun k =>
    let more := either k (next k) in
    if last then Op (tell push) (fun first => if first then send_e2e_error to k else more) else more) k in
  Op (is_told push) (fun t =>
    if t then k
    else if ok then rest
    else Exchange push (fun won => if won then send_e2e_error to k else rest)).
(* A callback that SendE2ETransaction calls itself, with the error (core.cc:1940-1951).
   For a part of a transfer the caller holds raft_.mu, so [rest] above stops at it for
   good: nothing follows. *)
Definition run_inline (c : cb) (k : prog) : prog :=
  match c with
  | CbReply | CbGetRaft _ | CbLoad => reply k
  | CbTime | CbMember => log k
  | CbWrite (Some c) => run_client c k
  | CbWrite None => reply k
  | CbPush push to last => push_done push to last false (fun _ => Done) k
  end.
(* core.cc:1930-1972 *)
Definition send_e2e (to : N) (timeout : bool) (c : cb) (k : prog) : prog :=
  Lock LE2E (log (send_to_peer to (fun ok =>
    if ok
    then (if timeout then enclave_config (set_timeout (Op (add_call to c) (fun _ => Unlock LE2E k)))
          else Op (add_call to c) (fun _ => Unlock LE2E k))
    else Unlock LE2E (run_inline c k)))).

(* core.cc:1266-1348 SendNextReplicationState; raft_.mu is held *)
Definition send_next (push to : N) (k : prog) : prog :=
  enclave_config (either
    (Op (tell push) (fun first => if first then send_e2e_error to k else k))   (* RowsAsProtos failed *)
    (min_current (log (decide (fun last => send_e2e to true (CbPush push to last) k))))).
(* core.cc:1234-1264 *)
Definition handle_replicate (p : N) (k : prog) : prog :=
  locked LRaft (fun k => either (send_e2e_error p k)
    (Op new_push (fun push => enclave_config (times (send_next push p) k)))) k.

(* core.cc:594-647 RequestRaftReplication; raft_.mu is held *)
Definition request_replication (p : N) (k : prog) : prog :=
  connected_peers (either (log k) (log (send_e2e p false CbLoad k))).
(* core.cc:509-592 JoinRaftFromFirstPeer; raft_.mu is held *)
Definition join_from (p : N) (k : prog) : prog := log (send_e2e p true (CbGetRaft p) k).
(* core.cc:675-712 RaftRequestMembership; raft_.mu is held *)
Definition request_membership (k : prog) : prog :=
  enclave_config (set_timeout (each (fun p k => log (send_e2e p true CbMember k)) k)).

(* The callbacks when called from HandleE2E, a timeout or ResetPeer *)
Definition run_cb (c : cb) (ok : bool) (k : prog) : prog :=
  match c with
  | CbReply => reply k
  | CbTime => log k
  | CbGetRaft p =>
      if ok
      then locked LRaft (fun k => either (reply k) (min_update 0 (either (reply k)
             (each (fun q k => pm_maybe_connect q (fun _ => k)) (either (reply k) (log (enclave_config (request_replication p k)))))))) k
      else reply k
  | CbLoad =>
      if ok
      then locked LRaft (fun k => update_group_time (min_current (client_refresh (either (reply k)
             (minimums_updated (enclave_config (request_membership k))))))) k
      else log (reply k)
  | CbMember => if ok then add_log k else log k
  | CbWrite client =>
      if ok then either (add_log k) (match client with Some c => run_client c k | None => reply k end)
      else match client with Some c => run_client c k | None => reply k end
  | CbPush push to last => push_done push to last ok (send_next push to) k
  end.

(* core.cc:1724-1734, 1736-1745 *)
Definition send_timestamp (p : N) (k : prog) : prog := send_e2e p true CbTime k.
Definition send_timestamp_to_all (k : prog) : prog := connected_peers (each send_timestamp (enclave_config (set_timeout k))).

(* core.cc:1759-1783 *)
Definition reset_peer (p : N) (k : prog) : prog :=
  lockedr LE2E (fun ret => times cancel_timeout (Op (take_calls p) ret))
    (fun cs => pm_reset p (log (fold_right (fun c k => run_cb c false k) k cs))).

(* core.cc:1678-1722; false: the error is returned *)
Definition raft_write (client : option N) (k : bool -> prog) : prog :=
  lockedr LRaft (fun ret =>
    either (ret false)
    (either (add_log (raft_step (ret true)))
            (some_id (fun leader => send_e2e leader true (CbWrite client) (ret true))))) k.

(* core.cc:913-940; timeouts: core.cc:684-689 (membership), 1742-1744 (timestamps),
   1955-1965 (requests), run by timeout.cc:11-28 after its lock is given back *)
Definition run_timeout (k : prog) : prog :=
  either (locked LRaft (fun k => either k (request_membership k)) k)
  (either (send_timestamp_to_all k)
          (some_id (fun tx => lockedr LE2E (fun ret => Op (take_call tx None) ret)
                                (fun c => match c with Some c => run_cb c false k | None => k end)))).
Definition timer_tick (k : prog) : prog :=
  touch LTimeout (times run_timeout
    (locked LRaft (fun k => update_group_time (either k (connect_to_members (log (raft_step k))))) k)).

(* core.cc:1108-1150; 1152-1179 HandlePeerConnect; 1181-1232 HandleE2ETransaction *)
Definition handle_peer_connect (p : N) (k : prog) : prog :=
  log (send_timestamp p (locked LRaft (fun k => either k (either (request_replication p k) (join_from p k))) k)).
(* 1350-1421; 1447-1471; 1473-1504; 1506-1527; 1529-1532; 1533-1573 *)
Definition handle_push (k : prog) : prog := locked LRaft (maybe (min_update 0)) k.
Definition handle_log_request (k : prog) : prog := locked LRaft (maybe raft_step) k.
Definition handle_time (k : prog) : prog := set_remote_time (locked LRaft update_group_time k).
Definition handle_removal (p : N) (k : prog) : prog :=
  locked LRaft (fun k => either (send_e2e_error p k) (add_log (raft_step k))) k.
Definition handle_request (p : N) (r : request) (k : prog) : prog :=
  let answer := either (send_e2e_error p k) (send_to_peer p (fun _ => k)) in
  match r with
  | RPing | ROther => log answer
  | RGetRaft => locked LRaft (maybe min_current) answer
  | RReplicate => handle_replicate p k
  | RPush => handle_push answer
  | RMembership | RVoting | RWrite => log (handle_log_request answer)
  | RTime => handle_time answer
  | RRemoval => handle_removal p k
  end.
Definition handle_e2e (p : N) (m : e2e) (k : prog) : prog :=
  match m with
  | EConnected => handle_peer_connect p k
  | ERaft => locked LRaft (maybe raft_step) k
  | ERequest r => handle_request p r k
  | EResponse tx ok =>
      lockedr LE2E (fun ret => Op (take_call tx (Some p)) (fun c =>
          match c with Some _ => cancel_timeout (ret c) | None => ret c end))
        (fun c => match c with Some c => run_cb c ok k | None => k end)
  | EAttestation | EOther => k
  end.

(* Messages to the enclave: core.cc:188-214, 216-370.  [MWriter] is not one: it is a round
   of the thread that writes to the socket (socket.cc:145-197). *)
Inductive message :=
| MNewClient | MClient (c : N) | MCloseClient | MCreate | MJoin (p : N) | MPing (p : N) | MRefresh (rotate : bool)
| MVoting | MStatus | MMetrics | MDatabase | MReconfigure | MLogLevel | MRelinquish | MRemoval | MHashes
| MReset (p : N) | MMinimums | MConnect (p : N) | MEnv | MTick | MPeer (p : N) (m : peer_msg) | MOther | MWriter.

(* core.cc:390-441; db4.cc:105-150 ResponseFromRequest *)
Definition handle_client (c : N) (k : prog) : prog :=
  let fail := remove_client (reply k) in
  get_client (fun f =>
    if negb f then fail
    else touch (LClient c)                                            (* client.h:36-39 Handshaking *)
      (either (touch (LClient c) (either (out k) fail))               (* client.cc:87-127 FinishHandshake *)
        (touch (LClient c) (either fail                               (* client.cc:129-143 DecryptRequest *)
          (maybe (touch (LState c)) (either
            (touch (LClient c) (either (out k) fail))                 (* answered at once *)
            (either fail (raft_write (Some c) (fun ok => if ok then k else fail))))))))).
(* core.cc:443-485 *)
Definition handle_create (k : prog) : prog :=
  log (locked LRaft (fun k => either (reply k) (enclave_config (raft_step (update_group_time (reply k))))) k).
(* core.cc:487-507 *)
Definition handle_join (p : N) (k : prog) : prog :=
  locked LRaft (fun k => either (reply k) (pm_peer_state p (fun c =>
    if c then join_from p k else either k (pm_connect p (fun _ => k))))) k.
(* core.cc:714-734 *)
Definition handle_refresh (rotate : bool) (k : prog) : prog :=
  touch LRaft (either k (min_current (if rotate then rotate_key k else client_refresh k))).
(* core.cc:736-770 *)
Definition handle_status (k : prog) : prog :=
  locked LRaft (fun k => all_peers (each pm_status k)) (out k).
(* core.cc:800-816 *)
Definition handle_reconfigure (k : prog) : prog := touch LConfig (either k (touch LRaft k)).
(* core.cc:818-840 *)
Definition handle_relinquish (k : prog) : prog :=
  locked LRaft (fun k => either (reply k) (add_log (raft_step k))) k.
(* core.cc:266-285, 842-860 *)
Definition ask_leader (k : prog) : prog :=
  locked LRaft (fun k => either (reply k) (some_id (fun leader => send_e2e leader true CbReply k))) k.
(* core.cc:885-911; minimums.h:27-30: the copy reads the core's limits *)
Definition handle_minimums (k : prog) : prog :=
  some_id (fun i => touch (LMin 0) (min_update (i + 1) (either (reply k)
    (check_peer_minimums (i + 1) (fun ok =>
      if ok then raft_write None (fun ok => if ok then k else reply k) else reply k))))).

Definition handler (m : message) (k : prog) : prog :=
  match m with
  | MNewClient => new_client (fun ok => if ok then some_id (fun c => touch (LClient c) (out k)) else reply k)
  | MClient c => handle_client c k
  | MCloseClient => remove_client (reply k)
  | MCreate => handle_create k
  | MJoin p => handle_join p k
  | MPing p => send_e2e p true CbReply k
  | MRefresh rotate => pm_refresh (handle_refresh rotate (reply k))
  | MVoting | MRemoval => ask_leader k
  | MStatus => handle_status k
  | MMetrics | MLogLevel | MEnv => out k
  | MDatabase => either (reply k) (raft_write None (fun ok => if ok then k else reply k))
  | MReconfigure => handle_reconfigure (reply k)
  | MRelinquish => handle_relinquish k
  | MHashes => touch LRaft (out k)
  | MReset p => reset_peer p (maybe reply k)        (* core.cc:199-204, 337-344 *)
  | MMinimums => handle_minimums k
  | MConnect p => pm_maybe_connect p (fun _ => reply k)
  | MTick => timer_tick k
  | MPeer p m => recv_from_peer p m (fun d => match d with Some e => handle_e2e p e k | None => k end)
  | MOther => k
  | MWriter => Lock LWrite (Lock LOut (Unlock LOut (Lock LOut (Unlock LOut (Unlock LWrite k)))))
  end.
(* socketmain.cc:129-147 one round of RunServerThread *)
Definition serve (m : message) : prog :=
  match m with
  | MWriter => handler m Done
  | _ => touch LRead (handler m (out Done))
  end.

(* The threads.  A thread without a message is at [Done].  [raced] is not in the code: it
   remembers that an [Exchange] came too late, because another callback of the same
   transfer has come in between. *)
Record state := State { d : data; held : list (lock * nat); raced : bool; threads : list prog }.
Definition start (n : nat) : state := State data0 [] false (repeat Done n).

Definition lock_eqb (a b : lock) : bool :=
  match a, b with
  | LRead, LRead | LWrite, LWrite | LRaft, LRaft | LE2E, LE2E | LLog, LLog | LConfig, LConfig | LTimeout, LTimeout
  | LPeers, LPeers | LClients, LClients | LClock, LClock | LOut, LOut => true
  | LPeer x, LPeer y | LMin x, LMin y | LClient x, LClient y | LState x, LState y => x =? y
  | _, _ => false
  end.
Definition is_held (l : lock) (h : list (lock * nat)) : bool := existsb (fun x => lock_eqb l (fst x)) h.
(* util/mutex.h:35-49 unique_lock: a thread only gives back what it has taken *)
Definition release (l : lock) (i : nat) (h : list (lock * nat)) : list (lock * nat) :=
  filter (fun x => negb (lock_eqb l (fst x) && Nat.eqb i (snd x))) h.
Definition set_thread (i : nat) (p : prog) (l : list prog) : list prog := firstn i l ++ p :: skipn (S i) l.

(* What a thread may do next: take a message if it has none, or make a step; the number
   decides what [Any] leaves open. *)
Inductive act := Take (m : message) | Go (n : nat).
Definition step (s : state) (e : nat * act) : option state :=
  let '(i, a) := e in
  match nth_error (threads s) i, a with
  | Some Done, Take m => Some (State (d s) (held s) (raced s) (set_thread i (serve m) (threads s)))
  | Some (Lock l k), Go _ =>
      if is_held l (held s) then None
      else Some (State (d s) ((l, i) :: held s) (raced s) (set_thread i k (threads s)))
  | Some (Unlock l k), Go _ => Some (State (d s) (release l i (held s)) (raced s) (set_thread i k (threads s)))
  | Some (Any k), Go n => Some (State (d s) (held s) (raced s) (set_thread i (k n) (threads s)))
  | Some (Op f k), Go _ =>
      let (d', a) := f (d s) in Some (State d' (held s) (raced s) (set_thread i (k a) (threads s)))
  | Some (Exchange push k), Go _ =>
      let (d', first) := tell push (d s) in
      Some (State d' (held s) (raced s || negb first) (set_thread i (k first) (threads s)))
  | _, _ => None
  end.
Fixpoint run (s : state) (es : list (nat * act)) : option state :=
  match es with [] => Some s | e :: es' => match step s e with Some s' => run s' es' | None => None end end.
