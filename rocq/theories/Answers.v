(* Model of how the enclave answers the host (enclave/core/core.cc): each request of the
   host has a number and is to get one answer with that number.  Some are answered at
   once; for others the number goes into a callback that waits for a replica's answer or
   for an entry of the log.

   What the requests do is left out: only the numbers are followed.  Where the code tests
   something else, either result is possible ([pick]).  A handler is one step, and so is
   what the replicated log does after it (RaftStep): [ECommitted], [ERemoved], [EAdded].
   When timeouts end is not modelled (Timeout.v, E2E.v): they end at any time. *)
From Verif Require Export Base.
From Coq Require Export List NArith Bool.
Export ListNotations.
Open Scope N_scope.

(* The callbacks given to AddLogTransaction *)
Inductive on_log :=
| LClient (tx : N)             (* core.cc:1619-1676 *)
| LReply (tx : N)              (* core.cc:787-797 database, 831-838 relinquish, 900-906 minimums *)
| LMember (tx timer : N)       (* core.cc:699-710 *)
| LPeer.                       (* core.cc:1564-1570: a replica waits, not the host *)
(* The callbacks given to SendE2ETransaction *)
Inductive on_peer :=
| PReply (tx : N)              (* core.cc:258-260 ping, 279-281 voting, 855-858 removal *)
| PWrite (l : on_log)          (* core.cc:1701-1717 *)
| PGetRaft (tx : N) (peer : N) (* core.cc:528-591 *)
| PLoad (tx : N)               (* core.cc:628-646 *)
| PMember (tx timer : N)       (* core.cc:694-711 *)
| POther.                      (* core.cc:1329-1347, 1730-1733: no request of the host *)

(* core.h: RaftState, as far as the numbers are concerned *)
Inductive raft :=
| NoState | Waiting (peer tx : N) | Loading (tx : N) (started : bool) | Requesting | Part.

Record world := World {
  st : raft;
  calls : list (N * (N * on_peer));    (* outstanding_e2e_transactions_: number, replica, callback *)
  next : N;                            (* e2e_txn_id_ *)
  waits : list (N * on_log);           (* outstanding_log_transactions_: place, callback *)
  timers : list (N * N);               (* core.cc:684-689: number of the timer, of the request *)
  next_timer : N;
  said : list N;                       (* the numbers of the answers, the latest last *)
  dead : bool;                         (* the enclave has stopped *)
  ch : list nat }.                     (* how the next tests come out *)
Definition world0 : world := World NoState [] 0 [] [] 0 [] false [].

Definition set_st (x : raft) (w : world) : world := World x (calls w) (next w) (waits w) (timers w) (next_timer w) (said w) (dead w) (ch w).
Definition set_calls (x : list (N * (N * on_peer))) (w : world) : world := World (st w) x (next w) (waits w) (timers w) (next_timer w) (said w) (dead w) (ch w).
Definition set_waits (x : list (N * on_log)) (w : world) : world := World (st w) (calls w) (next w) x (timers w) (next_timer w) (said w) (dead w) (ch w).
Definition set_timers (x : list (N * N)) (w : world) : world := World (st w) (calls w) (next w) (waits w) x (next_timer w) (said w) (dead w) (ch w).
Definition set_ch (x : list nat) (w : world) : world := World (st w) (calls w) (next w) (waits w) (timers w) (next_timer w) (said w) (dead w) x.
Definition crash (w : world) : world := World (st w) (calls w) (next w) (waits w) (timers w) (next_timer w) (said w) true (ch w).

(* how a test comes out *)
Definition pick (k : nat -> world -> world) (w : world) : world :=
  match ch w with [] => k O w | n :: r => k n (set_ch r w) end.
Definition either (a b : world -> world) (w : world) : world := pick (fun n => match n with O => a | _ => b end) w.

(* core.cc:76-85 ReplyWithError, or an answer put together and sent: sender::Send *)
Definition say (tx : N) (w : world) : world :=
  World (st w) (calls w) (next w) (waits w) (timers w) (next_timer w) (said w ++ [tx]) (dead w) (ch w).

(* timeout.cc:60-70, which is too late for a timer that is about to run *)
Definition cancel_timer (t : N) : world -> world :=
  either (fun w => w) (fun w => set_timers (filter (fun x => negb (fst x =? t)) (timers w)) w).
Definition set_timer (tx : N) (w : world) : N * world :=
  (next_timer w, World (st w) (calls w) (next w) (waits w) ((next_timer w, tx) :: timers w) (next_timer w + 1) (said w) (dead w) (ch w)).

(* The callbacks of the log; [ok]: the entry is there *)
Definition run_log (l : on_log) (ok : bool) (w : world) : world :=
  match l with
  | LClient tx => either (say tx) (say tx) w          (* 1660-1669: the answer; 1671-1674: an error *)
  | LReply tx => say tx w
  | LMember tx t => say tx (if ok then cancel_timer t w else w)
  | LPeer => w
  end.
(* core.cc:1609-1617 AddLogTransaction *)
Definition add_log (idx : N) (l : on_log) (w : world) : world := set_waits ((idx, l) :: waits w) w.
(* a place in the log that raft or a replica gives *)
Definition add_log_somewhere (l : on_log) : world -> world := pick (fun n => add_log (N.of_nat n) l).

(* the callbacks when the request could not be sent, timed out, or was answered with an error *)
Definition fail (c : on_peer) (w : world) : world :=
  match c with
  | PReply tx => say tx w
  | PWrite l => run_log l false w
  | PGetRaft tx _ => say tx w
  | PLoad tx => say tx w
  | PMember _ _ => w
  | POther => w
  end.
(* core.cc:1930-1972 SendE2ETransaction *)
Definition send (to : N) (c : on_peer) (w : world) : world :=
  let w := World (st w) (calls w) (next w + 1) (waits w) (timers w) (next_timer w) (said w) (dead w) (ch w) in
  either (fun w => set_calls ((next w, (to, c)) :: calls w) w) (fail c) w.
Definition some_peer (k : N -> world -> world) : world -> world := pick (fun n => k (N.of_nat n)).

(* core.cc:594-647 RequestRaftReplication *)
Definition request_replication (w : world) : world :=
  match st w with
  | Loading tx started =>
      let go w := some_peer (fun from => send from (PLoad tx)) (set_st (Loading tx true) w) in
      if started then go w else either (fun w => w) go w
  | _ => w
  end.
(* core.cc:675-712 RaftRequestMembership *)
Fixpoint ask_members (tx t : N) (n : nat) (w : world) : world :=
  match n with O => w | S n' => ask_members tx t n' (some_peer (fun p => send p (PMember tx t)) w) end.
Definition request_membership (tx : N) (w : world) : world :=
  let (t, w) := set_timer tx w in pick (fun n => ask_members tx t n) w.
(* core.cc:509-527 JoinRaftFromFirstPeer *)
Definition join_from_first (w : world) : world :=
  match st w with Waiting p tx => send p (PGetRaft tx p) w | _ => w end.

(* core.cc:533-591, the callback of JoinRaftFromFirstPeer without an error *)
Definition got_raft (tx : N) (w : world) : world :=
  match st w with
  | Waiting _ _ =>
      either (say tx)                                  (* 544-574 *)
        (fun w => request_replication (set_st (Loading tx false) w)) w
  | _ => say tx w
  end.
(* core.cc:635-646, 649-673, the callback of RequestRaftReplication without an error *)
Definition loaded (tx : N) (w : world) : world :=
  either (say tx)
    (fun w => match st w with
              | Loading tx' _ => request_membership tx' (set_st Requesting w)
              | _ => crash w                           (* loading.log is null *)
              end) w.
(* the callbacks when the request was answered without an error *)
Definition succeed (c : on_peer) (w : world) : world :=
  match c with
  | PReply tx => say tx w
  | PWrite l => either (run_log l false) (add_log_somewhere l) w      (* 1702-1716 *)
  | PGetRaft tx _ => got_raft tx w
  | PLoad tx => loaded tx w
  | PMember tx t => add_log_somewhere (LMember tx t) w
  | POther => w
  end.
Definition run_peer (c : on_peer) (ok : bool) (w : world) : world := if ok then succeed c w else fail c w.

(* core.cc:1127-1145 HandleE2E: a response.  [ok]: its status *)
Definition take_call (n : N) (w : world) : option (N * on_peer) * world :=
  match find (fun x => fst x =? n) (calls w) with
  | Some (_, c) => (Some c, set_calls (filter (fun x => negb (fst x =? n)) (calls w)) w)
  | None => (None, w)
  end.
Definition response (n from : N) (ok : bool) (w : world) : world :=
  match take_call n w with
  | (Some (to, c), w') => if to =? from then run_peer c ok w' else w
  | (None, w') => w'
  end.
(* core.cc:1955-1964 *)
Definition timed_out (n : N) (w : world) : world :=
  match take_call n w with (Some (_, c), w') => fail c w' | (None, w') => w' end.
(* core.cc:1759-1783 ResetPeer *)
Definition reset_peer (p : N) (w : world) : world :=
  fold_left (fun w x => fail (snd (snd x)) w) (filter (fun x => fst (snd x) =? p) (calls w))
    (set_calls (filter (fun x => negb (fst (snd x) =? p)) (calls w)) w).

(* core.cc:1678-1722 RaftWriteLogTransaction; false: an error is returned *)
Definition raft_write (l : on_log) (k : bool -> world -> world) (w : world) : world :=
  match st w with
  | Part => pick (fun n w => match n with
                  | O => k false w
                  | S O => k true (add_log_somewhere l w)
                  | _ => k true (some_peer (fun leader => send leader (PWrite l)) w)
                  end) w
  | _ => k false w
  end.

(* HostToEnclaveRequest, msgs.proto *)
Inductive kind :=
| QNewClient | QClient | QCloseClient | QCreate | QJoin (peer : N) | QPing (peer : N) | QRefresh | QVoting | QStatus
| QMetrics | QDatabase | QReconfigure | QLogLevel | QRelinquish | QRemoval | QHashes | QReset (peer : N) | QMinimums
| QConnect | QEnv | QUnset.

(* core.cc:372-388 *)
Definition new_client (tx : N) : world -> world := either (say tx) (say tx).
(* core.cc:390-441; false: an error is returned *)
Definition existing_client (tx : N) (k : bool -> world -> world) : world -> world :=
  either (k false)                                     (* no such client; handshake, decryption or request bad *)
   (either (fun w => k true (say tx w))                (* 396-405 handshake *)
     (either (fun w => k true (say tx w))              (* 411-429 answered by the client's state *)
       (raft_write (LClient tx) k))).
(* core.cc:443-485 *)
Definition create (tx : N) (w : world) : world :=
  match st w with
  | NoState => either (say tx) (fun w => say tx (set_st Part w)) w
  | _ => say tx w
  end.
(* core.cc:487-507 *)
Definition join (p tx : N) (w : world) : world :=
  match st w with
  | Part => say tx w
  | _ => either (say tx)                               (* the id cannot be read *)
           (fun w => either (fun w => w)               (* connecting *)
                            join_from_first (set_st (Waiting p tx) w)) w
  end.
(* core.cc:266-285; 842-860 *)
Definition ask_leader (tx : N) (w : world) : world :=
  match st w with
  | Part => either (say tx) (either (say tx) (some_peer (fun leader => send leader (PReply tx)))) w
  | _ => say tx w
  end.
(* core.cc:772-798; false: an error is returned *)
Definition database (tx : N) (k : bool -> world -> world) : world -> world :=
  either (k false) (raft_write (LReply tx) k).
(* core.cc:818-840 *)
Definition relinquish (tx : N) (w : world) : world :=
  match st w with Part => either (say tx) (add_log_somewhere (LReply tx)) w | _ => say tx w end.
(* core.cc:862-883; false: an error is returned *)
Definition hashes (tx : N) (k : bool -> world -> world) (w : world) : world :=
  match st w with Part | Requesting => either (k false) (fun w => k true (say tx w)) w | _ => k false w end.
(* core.cc:885-911 *)
Definition minimums (tx : N) : world -> world :=
  either (say tx) (either (say tx) (raft_write (LReply tx) (fun ok w => if ok then w else say tx w))).

(* core.cc:216-370 HandleHostToEnclave *)
Definition request (tx : N) (q : kind) (w : world) : world :=
  if tx =? 0 then w else
  let unless (ok : bool) (w : world) := if ok then w else say tx w in
  match q with
  | QNewClient => new_client tx w
  | QClient => existing_client tx unless w
  | QCloseClient => say tx w
  | QCreate => create tx w
  | QJoin p => join p tx w
  | QPing p => either (say tx) (send p (PReply tx)) w
  | QRefresh => say tx w
  | QVoting | QRemoval => ask_leader tx w
  | QStatus => either (say tx) (say tx) w
  | QMetrics => say tx w
  | QDatabase => database tx unless w
  | QReconfigure => say tx w
  | QLogLevel => either (say tx) (say tx) w
  | QRelinquish => relinquish tx w
  | QHashes => hashes tx unless w
  | QReset p => either (say tx) (fun w => say tx (reset_peer p w)) w
  | QMinimums => minimums tx w
  | QConnect => either (say tx) (say tx) w
  | QEnv => either (say tx) (say tx) w
  | QUnset => w
  end.

Inductive event :=
| ERequest (tx : N) (q : kind)
| EResponse (n from : N) (ok : bool)
| ETimeout (n : N)                     (* of a request to a replica *)
| EMemberTimeout (t : N)               (* core.cc:684-689 *)
| EPeerReset (p : N)                   (* core.cc:199-204 *)
| EConnected (p : N)                   (* core.cc:1152-1179 *)
| ECommitted (idx : N) (ok : list bool) (* core.cc:1904-1928 *)
| ERemoved | EAdded                    (* core.cc:1825-1857 *)
| EPeerRemoval                         (* core.cc:1533-1573 *)
| EPushDone.                           (* core.cc:1266-1348: the next part is sent *)

Fixpoint run_logs (l : list (N * on_log)) (ok : list bool) (w : world) : world :=
  match l with [] => w | x :: l' => run_logs l' (tl ok) (run_log (snd x) (hd false ok) w) end.
(* core.cc:1904-1928 HandleLogTransactionsForRaftLog *)
Definition committed (idx : N) (ok : list bool) (w : world) : world :=
  run_logs (filter (fun x => fst x =? idx) (waits w)) ok (set_waits (filter (fun x => negb (fst x =? idx)) (waits w)) w).
(* core.cc:1825-1857 HandleRaftMembershipChange *)
Definition removed (w : world) : world :=
  match st w with Part => run_logs (waits w) [] (set_waits [] (set_st Requesting w)) | _ => w end.
Definition added (w : world) : world := match st w with Requesting => set_st Part w | _ => w end.
(* core.cc:1152-1179 HandlePeerConnect *)
Definition connected (p : N) (w : world) : world :=
  let w := send p POther w in
  match st w with
  | Loading _ false => request_replication w
  | Waiting p' _ => if p =? p' then join_from_first w else w
  | _ => w
  end.
(* core.cc:684-689 *)
Definition member_timeout (t : N) (w : world) : world :=
  match find (fun x => fst x =? t) (timers w) with
  | Some (_, tx) =>
      let w := set_timers (filter (fun x => negb (fst x =? t)) (timers w)) w in
      match st w with Requesting => request_membership tx w | _ => w end
  | None => w
  end.

Definition step (w : world) (e : event * list nat) : world :=
  if dead w then w else
  let w := set_ch (snd e) w in
  match fst e with
  | ERequest tx q => request tx q w
  | EResponse n from ok => response n from ok w
  | ETimeout n => timed_out n w
  | EMemberTimeout t => member_timeout t w
  | EPeerReset p => reset_peer p w
  | EConnected p => connected p w
  | ECommitted idx ok => committed idx ok w
  | ERemoved => removed w
  | EAdded => added w
  | EPeerRemoval => either (fun w => w) (add_log_somewhere LPeer) w
  | EPushDone => some_peer (fun p => send p POther) w
  end.
Definition run (es : list (event * list nat)) : world := fold_left step es world0.
