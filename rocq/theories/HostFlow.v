(* Model of how the goroutines of the host wait for each other when messages go to the
   enclave and come out of it (host/dispatch/dispatcher.go, host/peer/client.go,
   host/enclave/sgx.go).

   A call of the enclave puts out any finite number of messages, one after the other, into a
   channel of limited size, and waits while that is full; apart from that it goes on by
   itself (what threads wait for inside of the enclave is in Locks.v).  One goroutine takes
   the messages out.  What messages say is left out; where the code tests something else,
   either result is possible.  That a host's goroutine gets its answer without waiting for
   its reader is C52.  Not modelled: shutdown; the socket to other kinds of enclaves, which
   has buffers of its own in between. *)
From Coq Require Export List Arith Bool Lia.
Export ListNotations.

Inductive out := ToHost | ToPeer.   (* EnclaveMessage: H2EResponse, PeerMessage *)
(* who waits in Send, dispatcher.go:89-98, until a worker's call is over *)
Inductive who :=
| ByLoop                (* ResetPeer in PeerClient.Send *)
| ByGone (i : nat)      (* ResetPeer after the goroutine of a sender has ended *)
| ByOther.              (* all others: handlers, peer server, metrics, ... *)
(* dispatcher.go:159-174 forwardToHostLoop *)
Inductive loop_state :=
| LWait                 (* for a message: 162-165 *)
| LLock                 (* for sendersMu: client.go:150 *)
| LReset (held : bool)  (* for a worker: dispatcher.go:91, from client.go:141 or, with the lock, 169 *)
| LResetIn (held : bool). (* for the worker's call: dispatcher.go:92 *)
(* client.go:183-210: the goroutine of one sender *)
Inductive gone_state :=
| GRun | GLock          (* it runs; it waits for sendersMu: 192 *)
| GReset | GResetIn     (* 203, with the lock: for a worker, for the worker's call *)
| GEnd.
Inductive owner := HLoop | HGone (i : nat).

Record host := Host {
  chan : list out;                        (* msgSendOutputs, sgx.go:147, 223 *)
  workers : list (option (who * list out)); (* dispatcher.go:141-153: for whom it is in the enclave, and what the call will put out *)
  tick : option (list out);               (* dispatcher.go:177-192 *)
  loop : loop_state;
  gone : list gone_state;
  mu : option owner;                      (* sendersMu *)
  others : nat }.                         (* how many others wait for a worker *)

Definition host0 (n : nat) : host := Host [] (repeat None n) None LWait [] None 0.

Fixpoint set_nth {A} (i : nat) (x : A) (l : list A) : list A :=
  match l, i with [], _ => [] | _ :: l', O => x :: l' | y :: l', S i' => y :: set_nth i' x l' end.

(* what getOrCreateSender and queueMessage find, client.go:132-212, 368-387 *)
Inductive found := Queued | Full | NewSender | AbandonedDrop | AbandonedReset.

Inductive event :=
(* from outside *)
| EOther                                   (* another goroutine calls Send *)
| ETick (outs : list out)                  (* the timer *)
| EAbandon (i : nat)                       (* a sender ends: client.go:184 *)
(* from inside *)
| EOut (k : nat) | ETickOut                (* the next message of a call is put out: sgx.go:214-225 *)
| EDone (k : nat) | ETickDone              (* the call is over *)
| ETake (k : nat) (w : who) (outs : list out) (* worker k takes a message and calls the enclave *)
| EMsg                                     (* the loop takes a message *)
| ELock (f : found)                        (* the loop gets sendersMu *)
| EGoneLock (i : nat) (abandon : bool).    (* a sender's goroutine gets sendersMu: client.go:192-209 *)
Definition internal (e : event) : bool := match e with EOther | ETick _ | EAbandon _ => false | _ => true end.

(* dispatcher.go:287-289, 92-97: the message had no reply, the channel is closed, Send returns;
   client.go:170, 141-142 and 206: the lock is released *)
Definition finish (w : who) (s : host) : host :=
  match w with
  | ByOther => s
  | ByLoop => match loop s with
              | LResetIn held => Host (chan s) (workers s) (tick s) LWait (gone s) (if held then None else mu s) (others s)
              | _ => s
              end
  | ByGone i => match nth_error (gone s) i with
                | Some GResetIn => Host (chan s) (workers s) (tick s) (loop s) (set_nth i GEnd (gone s)) None (others s)
                | _ => s
                end
  end.
Definition set_worker (k : nat) (x : option (who * list out)) (s : host) : host :=
  Host (chan s) (set_nth k x (workers s)) (tick s) (loop s) (gone s) (mu s) (others s).
(* cap: MESSAGE_BUFFER_SIZE, sgx.go:66 *)
Definition step (cap : nat) (s : host) (e : event) : option host :=
  match e with
  | EOther => Some (Host (chan s) (workers s) (tick s) (loop s) (gone s) (mu s) (S (others s)))
  | ETick outs =>
      match tick s with None => Some (Host (chan s) (workers s) (Some outs) (loop s) (gone s) (mu s) (others s)) | Some _ => None end
  | EAbandon i =>
      match nth_error (gone s) i with
      | Some GRun => Some (Host (chan s) (workers s) (tick s) (loop s) (set_nth i GLock (gone s)) (mu s) (others s))
      | _ => None
      end
  | EOut k =>
      match nth_error (workers s) k with
      | Some (Some (w, o :: r)) =>
          if length (chan s) <? cap then
            Some (Host (chan s ++ [o]) (set_nth k (Some (w, r)) (workers s)) (tick s) (loop s) (gone s) (mu s) (others s))
          else None
      | _ => None
      end
  | ETickOut =>
      match tick s with
      | Some (o :: r) =>
          if length (chan s) <? cap then Some (Host (chan s ++ [o]) (workers s) (Some r) (loop s) (gone s) (mu s) (others s)) else None
      | _ => None
      end
  | EDone k =>
      match nth_error (workers s) k with
      | Some (Some (w, [])) => Some (finish w (set_worker k None s))
      | _ => None
      end
  | ETickDone =>
      match tick s with Some [] => Some (Host (chan s) (workers s) None (loop s) (gone s) (mu s) (others s)) | _ => None end
  | ETake k w outs =>
      match nth_error (workers s) k with
      | Some None =>
          let s' := set_worker k (Some (w, outs)) s in
          match w with
          | ByLoop => match loop s with
                      | LReset held => Some (Host (chan s') (workers s') (tick s') (LResetIn held) (gone s') (mu s') (others s'))
                      | _ => None
                      end
          | ByGone i => match nth_error (gone s) i with
                        | Some GReset => Some (Host (chan s') (workers s') (tick s') (loop s') (set_nth i GResetIn (gone s')) (mu s') (others s'))
                        | _ => None
                        end
          | ByOther => match others s with
                       | O => None
                       | S n => Some (Host (chan s') (workers s') (tick s') (loop s') (gone s') (mu s') n)
                       end
          end
      | _ => None
      end
  | EMsg =>
      match loop s, chan s with
      | LWait, o :: r => Some (Host r (workers s) (tick s) (match o with ToHost => LWait | ToPeer => LLock end) (gone s) (mu s) (others s))
      | _, _ => None
      end
  | ELock f =>
      match loop s, mu s with
      | LLock, None =>
          Some (match f with
                | Queued | AbandonedDrop => Host (chan s) (workers s) (tick s) LWait (gone s) None (others s)
                | NewSender => Host (chan s) (workers s) (tick s) LWait (gone s ++ [GRun]) None (others s)
                | Full => Host (chan s) (workers s) (tick s) (LReset false) (gone s) None (others s)
                | AbandonedReset => Host (chan s) (workers s) (tick s) (LReset true) (gone s) (Some HLoop) (others s)
                end)
      | _, _ => None
      end
  | EGoneLock i abandon =>
      match nth_error (gone s) i, mu s with
      | Some GLock, None =>
          Some (if abandon then Host (chan s) (workers s) (tick s) (loop s) (set_nth i GReset (gone s)) (Some (HGone i)) (others s)
                else Host (chan s) (workers s) (tick s) (loop s) (set_nth i GEnd (gone s)) None (others s))
      | _, _ => None
      end
  end.
(* a history; None if one of its events is not possible *)
Fixpoint run (cap : nat) (s : host) (es : list event) : option host :=
  match es with [] => Some s | e :: es' => match step cap s e with Some s' => run cap s' es' | None => None end end.
