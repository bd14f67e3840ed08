(* Model of enclave/peers/peers.cc: when a link to another enclave counts as
   connected, what it takes to get there, and how the clock and the minimums take it
   down again.

   Attesting evidence at a time (env Attest) and checking values against limits
   (minimums.cc CheckValues) are functions given from outside; whether the Noise
   handshake, an encryption or a decryption works is an input.  Times are integers
   without bounds.  Peer functions hold the peer's lock throughout, but read the
   clock and the limits at separate moments: they are cut there.  The two functions
   that go through all peers take the lock of one at a time.

   [Crash] stands for a step that cannot happen then: the lock is taken, there is no
   such thread. *)
From Verif Require Export Base Hist.

Section Peers.
Context {E V L : Type} (attest : Z -> E -> option (bytes * V)) (check : L -> V -> bool) (no_values : V) (timeout : Z).

Inductive kind := KSyn | KSynack | KUpdate.
(* peers.h:140-149; the lock with what its holder has read: the time, and the
   values once checked.  tx_ and rx_ are set and cleared together. *)
Record peer := Peer { p_hs : bool; p_chan : bool; p_last : Z; p_vals : V; p_lock : option (kind * Z * option V) }.
(* peers.cc:61-69 *)
Definition new_peer : peer := Peer false false 0 no_values None.
Inductive pstate := Disconnected | Connecting | Connected.
(* peers.cc:384-392 InternalCurrentState *)
Definition state (p : peer) : pstate := if p_hs p then Connecting else if p_chan p then Connected else Disconnected.
(* peers.cc:394-402 InternalDisconnect; the caller then gives back the lock *)
Definition disconnect (p : peer) : peer := new_peer.

(* a thread in SetPeerAttestationTimestamp or MinimumsUpdated: the peers it still
   has to look at, None before it has the manager's lock; a peer found wanting and
   about to be disconnected *)
Inductive thread :=
| TTime (secs : Z) (todo : option (list bytes))
| TMins (todo : option (list bytes)) (drop : option bytes).
(* peers.h:291-304; the map holds the peers in m_ids, others are new *)
Record pmanager := PManager { m_time : Z; m_limits : L; m_ids : list bytes; m_peer : bytes -> peer; m_threads : list thread }.
(* peers.cc:489-493 *)
Definition new_pmanager (l : L) : pmanager := PManager 0 l [] (fun _ => new_peer) [].

Inductive decrypted := DFail | DUnparsable | DMsg (m : bytes).
Inductive pop :=
| PConnect (id : bytes) (maybe ok : bool)
| PLock (id : bytes) (k : kind) | PCheck (id : bytes) (ev : E) | PDone (id : bytes) (ok : bool)
| PData (id : bytes) (d : decrypted)
| PSend (id : bytes) (ok : bool)
| PRst (id : bytes) | PReset (id : bytes)
| PTime (secs : Z) | PLimits (l : L) | PMins
| PStart (i : nat) | PSweep (i : nat) (id : bytes) | PDrop (i : nat) | PEnd (i : nat).
Inductive pres := POk | PErr | PGot (m : bytes) | PConnected | PSent.

Definition set_peer (id : bytes) (p : peer) (s : pmanager) : pmanager :=
  PManager (m_time s) (m_limits s) (if existsb (beq id) (m_ids s) then m_ids s else id :: m_ids s)
    (fun x => if beq x id then p else m_peer s x) (m_threads s).
Definition set_threads (t : list thread) (s : pmanager) : pmanager := PManager (m_time s) (m_limits s) (m_ids s) (m_peer s) t.
Fixpoint replace_nth {X} (n : nat) (y : list X) (l : list X) : list X :=
  match n, l with _, [] => [] | O, _ :: l' => y ++ l' | S n', x :: l' => x :: replace_nth n' y l' end.
Definition remove_id (id : bytes) (l : list bytes) : list bytes := filter (fun x => negb (beq x id)) l.
(* peers.cc:454-470 MaybeDisconnectIfAttestationTooOld *)
Definition too_old (now : Z) (p : peer) : bool :=
  match state p with
  | Disconnected => false
  | st => if ((now <=? p_last p + timeout) && (p_last p - timeout <=? now))%Z%bool then false else
          match st with Connecting => negb (p_last p =? 0)%Z | _ => true end
  end.

Definition pstep (s : pmanager) (o : pop) : outcome (pmanager * pres) :=
  let locked id := match p_lock (m_peer s id) with Some _ => true | None => false end in
  match o with
  | PConnect id maybe ok =>
      (* peers.cc:219-240 Connect, MaybeConnect; 242-287 InternalConnect; 412-437 Reset *)
      if locked id then Crash else
      let p := m_peer s id in
      if (maybe && match state p with Disconnected => false | _ => true end)%bool then Ret (set_peer id p s, POk)
      else Ret (set_peer id (if ok then Peer true false 0 no_values None else disconnect p) s, if ok then POk else PErr)
  | PLock id k =>
      if locked id then Crash else
      let p := m_peer s id in
      match k, state p with
      | KSyn, _ =>
          (* peers.cc:295-316 Accept up to reading the time *)
          Ret (set_peer id (Peer false false 0 no_values (Some (k, m_time s, None))) s, POk)
      | KSynack, Connecting =>
          (* peers.cc:108-115, 167-183 Recv, FinishConnection up to reading the time *)
          Ret (set_peer id (Peer false (p_chan p) (p_last p) (p_vals p) (Some (k, m_time s, None))) s, POk)
      | KUpdate, Connected =>
          (* peers.cc:121-148 Recv of an attestation update, 439-440 *)
          Ret (set_peer id (Peer (p_hs p) (p_chan p) (p_last p) (p_vals p) (Some (k, m_time s, None))) s, POk)
      | _, _ =>
          (* peers.cc:109-113, 123-130 *)
          Ret (set_peer id (disconnect p) s, PErr)
      end
  | PCheck id ev =>
      (* peers.cc:184-193, 317-327, 441-447; a failure that comes before the time is
         read (parsing) has the same effect *)
      let p := m_peer s id in
      match p_lock p with
      | Some (k, ts, None) =>
          match attest ts ev with
          | Some (key, v) =>
              if (beq key id && check (m_limits s) v)%bool
              then Ret (set_peer id (Peer (p_hs p) (p_chan p) (p_last p) (p_vals p) (Some (k, ts, Some v))) s, POk)
              else Ret (set_peer id (disconnect p) s, PErr)
          | None => Ret (set_peer id (disconnect p) s, PErr)
          end
      | _ => Crash
      end
  | PDone id ok =>
      let p := m_peer s id in
      match p_lock p with
      | Some (k, ts, Some v) =>
          match k with
          | KUpdate =>
              (* peers.cc:448-451 *)
              Ret (set_peer id (Peer (p_hs p) (p_chan p) ts v None) s, POk)
          | _ =>
              (* peers.cc:195-217, 329-371 *)
              if ok then Ret (set_peer id (Peer false true ts v None) s, PConnected) else Ret (set_peer id (disconnect p) s, PErr)
          end
      | _ => Crash
      end
  | PData id d =>
      (* peers.cc:121-152 Recv of other data *)
      if locked id then Crash else
      let p := m_peer s id in
      match state p, d with
      | Connected, DMsg m => Ret (set_peer id p s, PGot m)
      | Connected, DUnparsable => Ret (set_peer id p s, PErr)
      | _, _ => Ret (set_peer id (disconnect p) s, PErr)
      end
  | PSend id ok =>
      (* peers.cc:71-99 Send *)
      if locked id then Crash else
      let p := m_peer s id in
      match state p with
      | Connected => if ok then Ret (set_peer id p s, PSent) else Ret (set_peer id (disconnect p) s, PErr)
      | _ => Ret (set_peer id p s, PErr)
      end
  | PRst id | PReset id =>
      (* peers.cc:153-156; 640-653 ResetPeer, 373-377 Disconnect *)
      if locked id then Crash else Ret (set_peer id (disconnect (m_peer s id)) s, POk)
  | PTime secs =>
      (* peers.cc:720-726 SetPeerAttestationTimestamp *)
      let s' := PManager secs (m_limits s) (m_ids s) (m_peer s) (m_threads s) in
      if (m_time s =? secs)%Z then Ret (s', POk) else Ret (set_threads (TTime secs None :: m_threads s) s', POk)
  | PLimits l => Ret (PManager (m_time s) l (m_ids s) (m_peer s) (m_threads s), POk)
  | PMins =>
      (* peers.cc:737 MinimumsUpdated *)
      Ret (set_threads (TMins None None :: m_threads s) s, POk)
  | PStart i =>
      (* peers.cc:727-729, 738-739 *)
      match nth_error (m_threads s) i with
      | Some (TTime secs None) => Ret (set_threads (replace_nth i [TTime secs (Some (m_ids s))] (m_threads s)) s, POk)
      | Some (TMins None d) => Ret (set_threads (replace_nth i [TMins (Some (m_ids s)) d] (m_threads s)) s, POk)
      | _ => Crash
      end
  | PSweep i id =>
      if locked id then Crash else
      let p := m_peer s id in
      match nth_error (m_threads s) i with
      | Some (TTime secs (Some todo)) =>
          (* peers.cc:730-732 *)
          let s' := set_threads (replace_nth i [TTime secs (Some (remove_id id todo))] (m_threads s)) s in
          Ret (if too_old secs p then set_peer id (disconnect p) s' else s', POk)
      | Some (TMins (Some todo) None) =>
          (* peers.cc:740, 478-487 CheckMinimums *)
          let bad := match state p with Connected => negb (check (m_limits s) (p_vals p)) | _ => false end in
          Ret (set_threads (replace_nth i [TMins (Some (remove_id id todo)) (if bad then Some id else None)] (m_threads s)) s, POk)
      | _ => Crash
      end
  | PDrop i =>
      (* peers.cc:741 *)
      match nth_error (m_threads s) i with
      | Some (TMins todo (Some id)) =>
          if locked id then Crash else
          Ret (set_peer id (disconnect (m_peer s id)) (set_threads (replace_nth i [TMins todo None] (m_threads s)) s), POk)
      | _ => Crash
      end
  | PEnd i =>
      match nth_error (m_threads s) i with
      | Some (TTime _ (Some [])) | Some (TMins (Some []) None) => Ret (set_threads (replace_nth i [] (m_threads s)) s, POk)
      | _ => Crash
      end
  end.
End Peers.
Arguments peer : clear implicits.
Arguments pmanager : clear implicits.
Arguments pop : clear implicits.
