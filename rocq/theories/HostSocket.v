(* Model of how the host calls an enclave behind a socket (host/enclave/socket.go,
   enclave/socketmain/socketmain.cc, enclave/env/socket/socket.cc).

   The socket carries whole messages both ways, in order (C39, C40, C50), as long as the
   connection stands; it may be lost at any time, with any of what is under way.  Messages
   are numbered by the order in which SendMessage is called.  What the enclave does with a
   message is any finite number of outputs and then any status; outputs carry, as a note
   that no code reads, the number of the message they come from.  Not modelled: the start
   (C86); messages that do not parse (those of the host do); the pause of a writer to a
   socket whose reader is slow. *)
From Coq Require Export List NArith Arith Bool Lia.
Export ListNotations.

Inductive res := Status (st : N) | SendFailed.      (* what SendMessage returns *)
Inductive caller :=
| CSend (id : N)     (* socket.go:230-236: registered, not yet written *)
| CWait (id : N)     (* 243 *)
| CDone (r : res).
Inductive down := DResp (id st : N) | DOut (m : nat) (x : N) | DLog.   (* OutboundMessage: msg, out, log *)
Inductive thread :=
| TIdle
| TRun (id : N) (m : nat)           (* socketmain.cc:133-145, in core->Receive *)
| TReply (id : N) (m : nat) (st : N). (* 146-149 *)
Inductive reader := RRun | RPut (m : nat) (x : N) | REnd.   (* socket.go:193-201; RPut: waits at 156 *)

Record sock := Sock {
  gen : N;                          (* msgIDGen *)
  calls : list (N * nat);           (* calls: whose channel *)
  callers : list caller;
  up : list (N * nat);              (* on the way to the enclave: id, message *)
  threads : list thread;
  dn : list down;                   (* on the way to the host *)
  rd : reader;
  chan : list (nat * N);            (* c *)
  conn : bool;
  (* what has happened *)
  served : list (nat * N);          (* what core->Receive returned for which message *)
  outs : list (nat * N);            (* what it put out *)
  got : list (nat * N) }.           (* what came out of the channel *)

Definition sock0 (n : nat) : sock := Sock 0 [] [] [] (repeat TIdle n) [] RRun [] true [] [] [].

Fixpoint set_nth {A} (i : nat) (x : A) (l : list A) : list A :=
  match l, i with [], _ => [] | _ :: l', O => x :: l' | y :: l', S i' => y :: set_nth i' x l' end.
Definition delete_call (id : N) (l : list (N * nat)) : list (N * nat) := filter (fun p => negb (fst p =? id)%N) l.
Definition find_call (id : N) (l : list (N * nat)) : option nat :=
  match find (fun p => (fst p =? id)%N) l with Some p => Some (snd p) | None => None end.

Inductive event :=
| ECall                              (* socket.go:214-233 *)
| ESend (i : nat)                    (* 234 *)
| ESendErr (i : nat) (sent : bool)   (* 235-240; the message may have left all the same *)
| ETake (k : nat)                    (* socketmain.cc:135-143 *)
| EEmit (k : nat) (x : N)            (* env/socket/socket.cc:69-74 *)
| ELog                               (* 76-83 *)
| EEnd (k : nat) (st : N)            (* socketmain.cc:144 *)
| EReply (k : nat)                   (* 145-149 *)
| ERead                              (* socket.go:139-164 *)
| EPut                               (* 156, after a wait *)
| EReadErr                           (* 141-143 *)
| ETakeOut                           (* dispatcher.go:162 *)
| ELost.

Definition step (cap : nat) (s : sock) (e : event) : option sock :=
  match e with
  | ECall =>
      (* 219: a uint64; 230-233 *)
      let id := ((gen s + 1) mod 2 ^ 64)%N in
      Some (Sock id ((id, length (callers s)) :: delete_call id (calls s)) (callers s ++ [CSend id]) (up s) (threads s) (dn s) (rd s) (chan s) (conn s)
              (served s) (outs s) (got s))
  | ESend i =>
      match nth_error (callers s) i, conn s with
      | Some (CSend id), true =>
          Some (Sock (gen s) (calls s) (set_nth i (CWait id) (callers s)) (up s ++ [(id, i)]) (threads s) (dn s) (rd s) (chan s) (conn s)
                  (served s) (outs s) (got s))
      | _, _ => None
      end
  | ESendErr i sent =>
      match nth_error (callers s) i with
      | Some (CSend id) =>
          Some (Sock (gen s) (delete_call id (calls s)) (set_nth i (CDone SendFailed) (callers s)) (if sent then up s ++ [(id, i)] else up s)
                  (threads s) (dn s) (rd s) (chan s) false (served s) (outs s) (got s))
      | _ => None
      end
  | ETake k =>
      match nth_error (threads s) k, up s with
      | Some TIdle, (id, m) :: r =>
          Some (Sock (gen s) (calls s) (callers s) r (set_nth k (TRun id m) (threads s)) (dn s) (rd s) (chan s) (conn s) (served s) (outs s) (got s))
      | _, _ => None
      end
  | EEmit k x =>
      match nth_error (threads s) k with
      | Some (TRun id m) =>
          Some (Sock (gen s) (calls s) (callers s) (up s) (threads s) (dn s ++ [DOut m x]) (rd s) (chan s) (conn s) (served s) (outs s ++ [(m, x)]) (got s))
      | _ => None
      end
  | ELog =>
      Some (Sock (gen s) (calls s) (callers s) (up s) (threads s) (dn s ++ [DLog]) (rd s) (chan s) (conn s) (served s) (outs s) (got s))
  | EEnd k st =>
      match nth_error (threads s) k with
      | Some (TRun id m) =>
          Some (Sock (gen s) (calls s) (callers s) (up s) (set_nth k (TReply id m st) (threads s)) (dn s) (rd s) (chan s) (conn s)
                  (served s ++ [(m, st)]) (outs s) (got s))
      | _ => None
      end
  | EReply k =>
      match nth_error (threads s) k with
      | Some (TReply id m st) =>
          Some (Sock (gen s) (calls s) (callers s) (up s) (set_nth k TIdle (threads s)) (dn s ++ [DResp id st]) (rd s) (chan s) (conn s)
                  (served s) (outs s) (got s))
      | _ => None
      end
  | ERead =>
      match rd s, dn s with
      | RRun, DLog :: r =>
          Some (Sock (gen s) (calls s) (callers s) (up s) (threads s) r RRun (chan s) (conn s) (served s) (outs s) (got s))
      | RRun, DOut m x :: r =>
          if length (chan s) <? cap
          then Some (Sock (gen s) (calls s) (callers s) (up s) (threads s) r RRun (chan s ++ [(m, x)]) (conn s) (served s) (outs s) (got s))
          else Some (Sock (gen s) (calls s) (callers s) (up s) (threads s) r (RPut m x) (chan s) (conn s) (served s) (outs s) (got s))
      | RRun, DResp id st :: r =>
          (* 177-191 receivedResponse *)
          match find_call id (calls s) with
          | Some i =>
              Some (Sock (gen s) (delete_call id (calls s)) (set_nth i (CDone (Status st)) (callers s)) (up s) (threads s) r RRun (chan s) (conn s)
                      (served s) (outs s) (got s))
          | None =>
              Some (Sock (gen s) (calls s) (callers s) (up s) (threads s) r REnd (chan s) false (served s) (outs s) (got s))
          end
      | _, _ => None
      end
  | EPut =>
      match rd s with
      | RPut m x =>
          if length (chan s) <? cap
          then Some (Sock (gen s) (calls s) (callers s) (up s) (threads s) (dn s) RRun (chan s ++ [(m, x)]) (conn s) (served s) (outs s) (got s))
          else None
      | _ => None
      end
  | EReadErr =>
      match rd s, conn s with
      | RRun, false => Some (Sock (gen s) (calls s) (callers s) (up s) (threads s) (dn s) REnd (chan s) false (served s) (outs s) (got s))
      | _, _ => None
      end
  | ETakeOut =>
      match chan s with
      | y :: r => Some (Sock (gen s) (calls s) (callers s) (up s) (threads s) (dn s) (rd s) r (conn s) (served s) (outs s) (got s ++ [y]))
      | [] => None
      end
  | ELost =>
      (* what was under way to the enclave does not arrive *)
      Some (Sock (gen s) (calls s) (callers s) [] (threads s) (dn s) (rd s) (chan s) false (served s) (outs s) (got s))
  end.

Fixpoint run (cap : nat) (s : sock) (es : list event) : option sock :=
  match es with [] => Some s | e :: es' => match step cap s e with Some s' => run cap s' es' | None => None end end.
