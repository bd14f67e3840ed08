(* Model of enclave/socketwrap/socket.{h,cc}.

   The bytes a socket will ever deliver are one stream; recv() hands out any
   non-empty part of what is left, may be interrupted, and returns 0 only at the
   end.  What recv() does is a list of events; when the list ends, it delivers
   all that is asked for.  Protobuf parsing is left out: messages are their
   serialized bytes. *)
From Verif Require Export Util.

Definition INT32_MAX : N := 2 ^ 31 - 1.

(* --- reading -------------------------------------------------------------- *)
Inductive recv_ev := RvGot (n : nat) | RvIntr | RvErr.
Inductive sockerr := Sock_ReadEOF | Sock_Read | Sock_ReadTooBig.
Record rstate := RState { r_evs : list recv_ev; r_stream : bytes; r_buf : bytes }.

(* socket.cc:26-47 ReadAll: the bytes read *)
Fixpoint read_all (evs : list recv_ev) (stream : bytes) (size : nat) : (bytes + sockerr) * list recv_ev * bytes :=
  match size, evs with
  | O, _ => (inl [], evs, stream)
  | _, [] => if Nat.leb size (length stream) then (inl (firstn size stream), [], skipn size stream) else (inr Sock_ReadEOF, [], [])
  | _, RvIntr :: evs' => read_all evs' stream size
  | _, RvErr :: evs' => (inr Sock_Read, evs', stream)
  | _, RvGot n :: evs' =>
      match stream with
      | [] => (inr Sock_ReadEOF, evs', [])
      | _ =>
          let k := Nat.min (Nat.max 1 n) (Nat.min size (length stream)) in
          match read_all evs' (skipn k stream) (size - k) with
          | (inl d, e, s) => (inl (firstn k stream ++ d), e, s)
          | r => r
          end
      end
  end.

(* socket.cc:67-100 ReadPB, up to parsing: the array given to ParseFromArray.
   The buffer is reused and only ever grows. *)
Definition read_pb (r : rstate) : (bytes + sockerr) * rstate :=
  match read_all (r_evs r) (r_stream r) 4 with
  | (inr e, evs, st) => (inr e, RState evs st (r_buf r))
  | (inl hdr, evs, st) =>
      let n := match be32_from hdr with Some n => n | None => 0 end in
      if INT32_MAX <? n then (inr Sock_ReadTooBig, RState evs st (r_buf r)) else
      let buf := if blen (r_buf r) <? n then r_buf r ++ zeros (N.to_nat n - length (r_buf r)) else r_buf r in
      match read_all evs st (N.to_nat n) with
      | (inr e, evs, st) => (inr e, RState evs st buf)
      | (inl d, evs, st) =>
          let buf := d ++ skipn (N.to_nat n) buf in
          (inl (firstn (N.to_nat n) buf), RState evs st buf)
      end
  end.

(* --- writing -------------------------------------------------------------- *)
(* socket.cc:120-130: what WritePB appends *)
Definition frame (m : bytes) : bytes := be32 (blen m) ++ m.

(* What WriteThread is doing: waiting for data, sending the buffer that is not the
   current one, of which [rest] is still to go, or gone after a socket error *)
Inductive wphase := WIdle | WSending (rest : bytes) | WDead.
(* socket.h:44-68, and the bytes handed to the socket so far.  done_ and in_use_
   are left out: one WriteThread, not killed.  writes_ is unbounded. *)
Record wqueue := WQueue { w_bufs : bytes * bytes; w_cur : bool; w_phase : wphase; w_writes : N; w_sent : bytes }.
(* socket.cc:102-106 *)
Definition empty_wqueue : wqueue := WQueue ([], []) true WIdle 0 [].

Definition w_get (q : wqueue) (b : bool) : bytes := if b then snd (w_bufs q) else fst (w_bufs q).
Definition w_put (q : wqueue) (b : bool) (v : bytes) : bytes * bytes := if b then (fst (w_bufs q), v) else (v, snd (w_bufs q)).

Inductive wop := WWrite (m : bytes) | WTake | WSend (n : nat) | WSendErr | WDone | WFlush | WFlushed (wait_for : N).
Inductive wres := WrOK | WrTooBig | WrBlocked | WrFlush (wait_for : N) | WrFlushed (b : bool).

Definition wstep (q : wqueue) (o : wop) : outcome (wqueue * wres) :=
  match o with
  | WWrite m =>
      (* socket.cc:108-139 WritePB, atomic under the lock *)
      if INT32_MAX <? blen m then Ret (q, WrTooBig) else
      Ret (WQueue (w_put q (w_cur q) (w_get q (w_cur q) ++ frame m)) (w_cur q) (w_phase q) (w_writes q) (w_sent q), WrOK)
  | WTake =>
      (* socket.cc:161-186: with the lock, switch buffers if there is data *)
      match w_phase q with
      | WIdle =>
          match w_get q (w_cur q) with
          | [] => Ret (q, WrBlocked)
          | b => match w_get q (negb (w_cur q)) with
                 | [] => Ret (WQueue (w_bufs q) (negb (w_cur q)) (WSending b) (w_writes q) (w_sent q), WrOK)
                 | _ => Crash
                 end
          end
      | _ => Ret (q, WrBlocked)
      end
  | WSend n =>
      (* socket.cc:49-65 WriteAll, one send(), without the lock; n = 0 stands for an
         interrupted or empty send *)
      match w_phase q with
      | WSending (x :: rest) =>
          Ret (WQueue (w_bufs q) (w_cur q) (WSending (skipn n (x :: rest))) (w_writes q) (w_sent q ++ firstn n (x :: rest)), WrOK)
      | _ => Ret (q, WrBlocked)
      end
  | WSendErr =>
      match w_phase q with
      | WSending (_ :: _) => Ret (WQueue (w_bufs q) (w_cur q) WDead (w_writes q) (w_sent q), WrOK)
      | _ => Ret (q, WrBlocked)
      end
  | WDone =>
      (* socket.cc:191-209: all sent; with the lock, clear the buffer and count *)
      match w_phase q with
      | WSending [] => Ret (WQueue (w_put q (negb (w_cur q)) []) (w_cur q) WIdle (w_writes q + 1) (w_sent q), WrOK)
      | _ => Ret (q, WrBlocked)
      end
  | WFlush =>
      (* socket.cc:218-224 FlushIfAble *)
      Ret (q, WrFlush (w_writes q + (if blen (w_get q (w_cur q)) =? 0 then 0 else 1)
                                  + (if blen (w_get q (negb (w_cur q))) =? 0 then 0 else 1)))
  | WFlushed w =>
      (* socket.cc:225-228: the condition it waits for *)
      Ret (q, WrFlushed (w <=? w_writes q))
  end.
