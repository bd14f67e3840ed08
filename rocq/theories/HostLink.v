(* Model of the transport of peer messages from one host to another
   (host/peer/sequence_number.go, host/peer/client.go, host/peer/server.go): the
   peerSender of one host for a remote peer, the peerReceiver of that peer, and the
   connection between them.  A replica that restarts has a new id, so that neither
   side outlives the other's memory of it.

   A connection carries messages one way and acknowledgements the other, each in
   order; what has not been read when a side gives up is lost.  The receiver answers a
   new connection only after the old one's handler has ended (server.go:190-203), and
   the sender sends messages only after that answer (client.go:440-457), so that one
   connection is modelled.  The sender's goroutine and PeerClient.Send share only the
   channel, whose replacement (client.go:370-375) is atomic: a message taken from the
   old channel after it was replaced was taken before.  Not modelled: time, dialling,
   and the look-up of addresses; frames are those of HostFrame.v. *)
From Verif Require Export Base Hist.
From Coq Require Export ZArith.

(* sequence_number.go:13-16; uint32 and uint64 *)
Record seqno := Sq { sq_epoch : N; sq_seq : N }.
Definition w32 (x : N) : N := x mod 2 ^ 32.
Definition w64 (x : N) : N := x mod 2 ^ 64.
(* int32(a - b) and int(a - b) *)
Definition diff32 (a b : N) : Z :=
  let d := ((Z.of_N a - Z.of_N b) mod 2 ^ 32)%Z in if (d <? 2 ^ 31)%Z then d else (d - 2 ^ 32)%Z.
Definition diff64 (a b : N) : Z :=
  let d := ((Z.of_N a - Z.of_N b) mod 2 ^ 64)%Z in if (d <? 2 ^ 63)%Z then d else (d - 2 ^ 64)%Z.
(* 20-22 *)
Definition follows (s p : seqno) : bool :=
  (((sq_epoch p <? sq_epoch s) && (sq_seq s =? 0)) ||
   ((sq_epoch s =? sq_epoch p) && (sq_seq s =? w64 (sq_seq p + 1))))%bool.
(* 25-30, 34-39, 48-53 *)
Definition next (s : seqno) : seqno := Sq (sq_epoch s) (w64 (sq_seq s + 1)).
Definition next_epoch (s : seqno) : seqno := Sq (w32 (sq_epoch s + 1)) 0.
Definition cmp (s o : seqno) : Z :=
  let e := diff32 (sq_epoch s) (sq_epoch o) in
  if (e =? 0)%Z then diff64 (sq_seq s) (sq_seq o) else e.

(* peer messages; client.go:215-232 *)
Inductive kind := KSyn | KSynack | KRst | KData.
Record pmsg := PMsg { pm_kind : kind; pm_body : bytes }.
Definition establishing (m : pmsg) : bool := match pm_kind m with KSyn | KSynack => true | _ => false end.
Definition resets (m : pmsg) : bool := match pm_kind m with KRst => true | _ => false end.

Record link := Link {
  (* the sender: client.go:79-80 and 238-247; no sender: never connected, or abandoned *)
  h_there : bool; h_abandoned : bool;
  h_queue : list pmsg; h_pending : list (seqno * pmsg); h_last : seqno;
  (* while connected: the next number (client.go:460) *)
  h_up : bool; h_cur : seqno;
  (* the connection: messages and acknowledgements on their way; the receiver reads it *)
  h_srv : bool; h_data : list (seqno * pmsg); h_acks : list seqno;
  (* the receiver: server.go:149 *)
  h_seen : seqno }.
Definition no_link : link := Link false false [] [] (Sq 0 0) false (Sq 0 0) false [] [] (Sq 0 0).

(* what is seen from outside in a step *)
Record lres := LRes {
  r_accepted : bool;              (* PeerClient.Send returned no error *)
  r_sent : option pmsg;           (* a new message was written to a connection *)
  r_got : option pmsg;            (* a message was handed to the receiving enclave *)
  r_reset : bool }.               (* the sending enclave was told to reset the peer *)
Definition still := LRes false None None false.

Inductive lop :=
| LQueue (m : pmsg) | LSend | LDeliver (ok : bool) | LAck | LClientDrop | LServerDrop | LConnect | LAbandon.

Section Link.
Variable buffer : N.   (* cfg.BufferSize *)

(* client.go:132-146 Send, 149-213 getOrCreateSender, 368-387 queueMessage *)
Definition enqueue (m : pmsg) (l : link) : link * lres :=
  let put (l : link) :=
    let q := if (establishing m || resets m)%bool then [] else h_queue l in
    if N.of_nat (length q) <? buffer then
      (Link true (h_abandoned l) (q ++ [m]) (h_pending l) (h_last l) (h_up l) (h_cur l) (h_srv l) (h_data l) (h_acks l) (h_seen l),
       LRes true None None false)
    else
      (Link true (h_abandoned l) q (h_pending l) (h_last l) (h_up l) (h_cur l) (h_srv l) (h_data l) (h_acks l) (h_seen l),
       LRes false None None true) in
  if h_there l then put l
  else if h_abandoned l then
    if resets m then (l, still)
    else if negb (establishing m) then (l, LRes false None None true)
    else put (Link true false [] [] (Sq 0 0) false (h_cur l) (h_srv l) (h_data l) (h_acks l) (h_seen l))
  else put (Link true false [] [] (Sq 0 0) false (h_cur l) (h_srv l) (h_data l) (h_acks l) (h_seen l)).

(* client.go:390-409 processAck; None: an error *)
Fixpoint drop_acked (ack : seqno) (p : list (seqno * pmsg)) : list (seqno * pmsg) :=
  match p with
  | [] => []
  | (s, m) :: p' => if (0 <? cmp s ack)%Z then p else drop_acked ack p'
  end.
Definition process_ack (ack : seqno) (l : link) : option link :=
  if (cmp ack (h_last l) <? 0)%Z then None
  else Some (Link (h_there l) (h_abandoned l) (h_queue l) (drop_acked ack (h_pending l)) ack
               (h_up l) (h_cur l) (h_srv l) (h_data l) (h_acks l) (h_seen l)).
(* client.go:436: the connection is closed by the sender; the receiver may still read
   what is on its way *)
Definition client_drop (l : link) : link :=
  Link (h_there l) (h_abandoned l) (h_queue l) (h_pending l) (h_last l) false (h_cur l) (h_srv l) (h_data l) [] (h_seen l).
(* the receiver gives up the connection; acknowledgements may still be on their way *)
Definition server_drop (l : link) : link :=
  Link (h_there l) (h_abandoned l) (h_queue l) (h_pending l) (h_last l) (h_up l) (h_cur l) false [] (h_acks l) (h_seen l).

(* client.go:484-521: one turn of the loop with a message *)
Definition send_one (l : link) : link * lres :=
  if negb (h_up l) then (l, still) else
  match h_queue l with
  | [] => (l, still)
  | m :: q =>
      let s := if establishing m then next_epoch (h_cur l) else h_cur l in
      let p := if establishing m then [] else h_pending l in
      (Link (h_there l) (h_abandoned l) q (p ++ [(s, m)]) (h_last l) (h_up l) (next s)
            (h_srv l) (if h_srv l then h_data l ++ [(s, m)] else []) (h_acks l) (h_seen l),
       LRes false (Some m) None false)
  end.
(* client.go:522-531 *)
Definition read_ack (l : link) : link * lres :=
  if negb (h_up l) then (l, still) else
  match h_acks l with
  | [] => (l, still)
  | a :: r =>
      let l1 := Link (h_there l) (h_abandoned l) (h_queue l) (h_pending l) (h_last l) (h_up l) (h_cur l) (h_srv l) (h_data l) r (h_seen l) in
      match process_ack a l1 with Some l2 => (l2, still) | None => (client_drop l1, still) end
  end.
(* server.go:161-170 updateSeqno, 241-309: one message.  ok: the enclave takes the
   message (the dispatcher reports no error for peer messages: dispatcher.go:89-98) *)
Definition deliver (ok : bool) (l : link) : link * lres :=
  if negb (h_srv l) then (l, still) else
  match h_data l with
  | [] => (l, still)
  | (s, m) :: d =>
      let with_ seen ack := Link (h_there l) (h_abandoned l) (h_queue l) (h_pending l) (h_last l) (h_up l) (h_cur l)
                              (h_srv l) d (if h_up l then h_acks l ++ [ack] else []) seen in
      if (cmp s (h_seen l) <=? 0)%Z then (with_ (h_seen l) (h_seen l), still)
      else if negb (follows s (h_seen l)) then (server_drop l, still)
      else (with_ s s, LRes false None (if ok then Some m else None) false)
  end.
(* client.go:435-469 with server.go:217-232: the handshake, and the pending messages
   are sent again *)
Fixpoint next_n (n : nat) (s : seqno) : seqno := match n with O => s | S k => next_n k (next s) end.
Definition connect (l : link) : link * lres :=
  if (negb (h_there l) || h_up l)%bool then (l, still) else
  let l1 := Link true (h_abandoned l) (h_queue l) (h_pending l) (h_last l) false (h_cur l) false [] [] (h_seen l) in
  match process_ack (h_seen l) l1 with
  | None => (l1, still)
  | Some l2 =>
      (Link true (h_abandoned l2) (h_queue l2) (h_pending l2) (h_last l2) true
            (next_n (length (h_pending l2)) (next (h_last l2))) true (h_pending l2) [] (h_seen l2), still)
  end.
(* client.go:186-206 and 283-287: no connection for too long *)
Definition abandon (l : link) : link * lres :=
  if (negb (h_there l) || h_up l)%bool then (l, still) else
  (Link false true [] [] (Sq 0 0) false (h_cur l) (h_srv l) (h_data l) (h_acks l) (h_seen l), LRes false None None true).

Definition lstep (l : link) (o : lop) : outcome (link * lres) :=
  Ret match o with
  | LQueue m => enqueue m l
  | LSend => send_one l
  | LDeliver ok => deliver ok l
  | LAck => read_ack l
  | LClientDrop => (client_drop l, still)
  | LServerDrop => (server_drop l, still)
  | LConnect => connect l
  | LAbandon => abandon l
  end.
End Link.
