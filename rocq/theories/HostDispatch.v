(* Model of the dispatcher that passes messages between the host and its enclave
   (host/dispatch/dispatcher.go, host/util/txid.go).  Goroutines that call Send or
   SendTransaction are numbered in the order in which their requests get their ids; the
   workers that take them, the worker's call of the enclave, the loop that reads the
   enclave's messages, and the callers that read their channels, interleave at the
   points where they lock, send, close or receive.  Any message of the enclave may come
   at any time.  Not modelled: time-outs, metrics, and the shutdown of the dispatcher. *)
From Verif Require Export Base Hist.

(* an H2EResponse: its request id, and the rest *)
Definition response := (N * bytes)%type.
(* the goroutine in a worker that handles a call: dispatcher.go:281-301 *)
Inductive phase :=
| PNone                     (* no such call yet *)
| PQueued                   (* blocked on d.tx *)
| PTaken                    (* the worker is in the enclave *)
| PFailed (c : option nat)  (* the enclave returned an error; the channel to be closed *)
| PIdle.                    (* the worker is done *)
(* a call of Send, with its channel (dispatcher.go:90), of capacity 1 *)
Record call := Call { c_id : option N; c_phase : phase; c_buf : option response; c_closed : bool; c_done : bool }.
Definition nobody : call := Call None PNone None false false.

Record disp := Disp {
  d_next : N;                          (* util.TxGenerator.txcounter, uint64 *)
  d_count : nat; d_calls : nat -> call;
  d_recv : list (N * nat);             (* receivers: request id to channel *)
  d_hand : option (nat * response) }.  (* forwardToHost between 308 and 312 *)
Definition no_calls : disp := Disp 0 0 (fun _ => nobody) [] None.

Definition put_call (j : nat) (c : call) (f : nat -> call) : nat -> call := fun k => if (k =? j)%nat then c else f k.
(* 339-357: the map of receivers *)
Fixpoint get_recv (id : N) (m : list (N * nat)) : option nat :=
  match m with [] => None | (i, c) :: r => if i =? id then Some c else get_recv id r end.
Definition del_recv (id : N) (m : list (N * nat)) : list (N * nat) := filter (fun x => negb (fst x =? id)) m.
Definition set_recv (id : N) (c : nat) (m : list (N * nat)) : list (N * nat) := (id, c) :: del_recv id m.

(* close(c): a panic if it is closed *)
Definition close_chan (j : nat) (f : nat -> call) : outcome (nat -> call) :=
  let c := f j in
  if c_closed c then Crash else Ret (put_call j (Call (c_id c) (c_phase c) (c_buf c) true (c_done c)) f).
Definition with_phase (p : phase) (c : call) : call := Call (c_id c) p (c_buf c) (c_closed c) (c_done c).

Inductive dop :=
| DCall (request : bool)          (* SendTransaction, or Send of a message without reply *)
| DTake (j : nat)                 (* a worker takes the call *)
| DSent (j : nat) (ok : bool)     (* enclave.SendMessage returns *)
| DFail (j : nat)                 (* the worker closes the channel after an error *)
| DRespond (id : N) (b : bytes)   (* the loop takes a response of the enclave *)
| DHand                           (* and hands it to the channel *)
| DReceive (j : nat).             (* the caller receives from its channel *)
(* what a caller gets: its number, and the response, or nil *)
Definition dres := option (nat * option response).

(* txid.go:15-17; SendTransaction, 102-109, and Send, 89-91 *)
Definition next_id (n : N) : N := (n + 1) mod 2 ^ 64.
Definition start_call (request : bool) (d : disp) : disp :=
  let n := if request then next_id (d_next d) else d_next d in
  Disp n (S (d_count d)) (put_call (d_count d) (Call (if request then Some n else None) PQueued None false false) (d_calls d)) (d_recv d) (d_hand d).
(* 141-153 and 281-293 *)
Definition take_call (j : nat) (d : disp) : disp :=
  let c := d_calls d j in
  match c_phase c with
  | PQueued =>
      let r := match c_id c with Some id => set_recv id j (d_recv d) | None => d_recv d end in
      Disp (d_next d) (d_count d) (put_call j (with_phase PTaken c) (d_calls d)) r (d_hand d)
  | _ => d
  end.
(* 286-300 *)
Definition sent (j : nat) (ok : bool) (d : disp) : outcome disp :=
  let c := d_calls d j in
  match c_phase c with
  | PTaken =>
      match c_id c with
      | None =>
          match close_chan j (put_call j (with_phase PIdle c) (d_calls d)) with
          | Crash => Crash
          | Ret f => Ret (Disp (d_next d) (d_count d) f (d_recv d) (d_hand d))
          end
      | Some id =>
          if ok then Ret (Disp (d_next d) (d_count d) (put_call j (with_phase PIdle c) (d_calls d)) (d_recv d) (d_hand d))
          else Ret (Disp (d_next d) (d_count d) (put_call j (with_phase (PFailed (get_recv id (d_recv d))) c) (d_calls d))
                         (del_recv id (d_recv d)) (d_hand d))
      end
  | _ => Ret d
  end.
(* 295-297 *)
Definition fail_call (j : nat) (d : disp) : outcome disp :=
  let c := d_calls d j in
  match c_phase c with
  | PFailed k =>
      let f := put_call j (with_phase PIdle c) (d_calls d) in
      match k with
      | None => Ret (Disp (d_next d) (d_count d) f (d_recv d) (d_hand d))
      | Some i => match close_chan i f with
                  | Crash => Crash
                  | Ret g => Ret (Disp (d_next d) (d_count d) g (d_recv d) (d_hand d))
                  end
      end
  | _ => Ret d
  end.
(* 312-313: send, a panic if the channel is closed, and close.  If the channel is full
   the loop blocks.  A caller that receives between the two gets what it would get after. *)
Definition hand_over (d : disp) : outcome disp :=
  match d_hand d with
  | None => Ret d
  | Some (j, m) =>
      let c := d_calls d j in
      if c_closed c then Crash
      else match c_buf c with
           | Some _ => Ret d
           | None =>
               match close_chan j (put_call j (Call (c_id c) (c_phase c) (Some m) (c_closed c) (c_done c)) (d_calls d)) with
               | Crash => Crash
               | Ret f => Ret (Disp (d_next d) (d_count d) f (d_recv d) None)
               end
           end
  end.
(* 164-170 and 303-311: the loop takes a response when it is done with the one before *)
Definition respond (id : N) (b : bytes) (d : disp) : outcome disp :=
  match hand_over d with
  | Crash => Crash
  | Ret d1 =>
      match d_hand d1 with
      | Some _ => Ret d1
      | None =>
          match get_recv id (d_recv d1) with
          | None => Ret d1
          | Some j => Ret (Disp (d_next d1) (d_count d1) (d_calls d1) (del_recv id (d_recv d1)) (Some (j, (id, b))))
          end
      end
  end.
(* 92-98 *)
Definition receive (j : nat) (d : disp) : disp * dres :=
  let c := d_calls d j in
  if c_done c then (d, None)
  else match c_buf c with
       | Some m =>
           (Disp (d_next d) (d_count d) (put_call j (Call (c_id c) (c_phase c) None (c_closed c) true) (d_calls d)) (d_recv d) (d_hand d),
            Some (j, Some m))
       | None =>
           if c_closed c then
             (Disp (d_next d) (d_count d) (put_call j (Call (c_id c) (c_phase c) None (c_closed c) true) (d_calls d)) (d_recv d) (d_hand d),
              Some (j, None))
           else (d, None)
       end.

Definition quiet (o : outcome disp) : outcome (disp * dres) := match o with Crash => Crash | Ret d => Ret (d, None) end.
Definition dstep (d : disp) (o : dop) : outcome (disp * dres) :=
  match o with
  | DCall request => Ret (start_call request d, None)
  | DTake j => Ret (take_call j d, None)
  | DSent j ok => quiet (sent j ok d)
  | DFail j => quiet (fail_call j d)
  | DRespond id b => quiet (respond id b d)
  | DHand => quiet (hand_over d)
  | DReceive j => Ret (receive j d)
  end.
