(* Model of the requests an enclave sends to its peers (enclave/core/core.cc:
   SendE2ETransaction, the response part of HandleE2E, ResetPeer) on top of the
   timeouts of Timeout.v.

   The table and the numbering are under one lock (e2e_txn_mu_), which each function
   holds until it has taken out what it is going to call: a function is one step.
   Callbacks may send new requests; these are steps of their own.  Requests are
   numbered without bound (uint64_t in the code).  What is in requests and responses
   is left out; whether the peer manager can send is an input. *)
From Verif Require Export Timeout Hist.
Open Scope Z_scope.

(* core.h:316-321; the callback is known by the request's number *)
Record entry := Entry { x_tx : N; x_to : bytes; x_cancel : Z * Z }.
Record e2e := E2E { e_next : N; e_out : list entry; e_time : timeouts N }.
Definition no_e2e : e2e := E2E 0 [] no_timeouts.

Inductive why := WNotSent | WResponse (from : bytes) | WTimeout | WReset.
Inductive eop :=
| ESend (to : bytes) (with_timeout : option Z) (sent : bool)
| EResponse (from : bytes) (tx : N)
| ETick | ERun (k : nat)
| EReset (id : bytes).
(* the number given to a request; the callbacks run *)
Record eres := ERes { r_sent : option N; r_called : list (N * why) }.

Definition find_tx (tx : N) (l : list entry) : option entry := find (fun x => (x_tx x =? tx)%N) l.
Definition erase_tx (tx : N) (l : list entry) : list entry := filter (fun x => negb (x_tx x =? tx)%N) l.

(* core.cc:1930-1972 SendE2ETransaction; timeout.h:20: a Cancel made without a timeout
   is (0, 0) *)
Definition e2e_send (s : e2e) (to : bytes) (d : option Z) (sent : bool) : outcome (e2e * eres) :=
  let tx := (e_next s + 1)%N in
  if negb sent then Ret (E2E tx (e_out s) (e_time s), ERes (Some tx) [(tx, WNotSent)])
  else
    match d with
    | None => Ret (E2E tx (e_out s ++ [Entry tx to (0, 0)]) (e_time s), ERes (Some tx) [])
    | Some d =>
        match set_timeout d tx (e_time s) with
        | Ret (t, RSet a i) => Ret (E2E tx (e_out s ++ [Entry tx to (a, i)]) t, ERes (Some tx) [])
        | _ => Crash
        end
    end.
(* core.cc:1127-1145 HandleE2E, a response *)
Definition e2e_response (s : e2e) (from : bytes) (tx : N) : e2e * eres :=
  match find_tx tx (e_out s) with
  | None => (s, ERes None [])
  | Some x =>
      if negb (beq (x_to x) from) then (s, ERes None [])
      else (E2E (e_next s) (erase_tx tx (e_out s)) (cancel_timeout (fst (x_cancel x)) (snd (x_cancel x)) (e_time s)),
            ERes None [(tx, WResponse from)])
  end.
(* core.cc:1955-1964, the function given to SetTimeout *)
Definition e2e_timed_out (s : e2e) (tx : N) : e2e * eres :=
  match find_tx tx (e_out s) with
  | None => (s, ERes None [])
  | Some _ => (E2E (e_next s) (erase_tx tx (e_out s)) (e_time s), ERes None [(tx, WTimeout)])
  end.
(* core.cc:1759-1783 ResetPeer *)
Definition e2e_reset (s : e2e) (id : bytes) : e2e * eres :=
  let mine := filter (fun x => beq (x_to x) id) (e_out s) in
  (E2E (e_next s) (filter (fun x => negb (beq (x_to x) id)) (e_out s))
     (fold_left (fun t x => cancel_timeout (fst (x_cancel x)) (snd (x_cancel x)) t) mine (e_time s)),
   ERes None (map (fun x => (x_tx x, WReset)) mine)).

Definition e2e_step (s : e2e) (o : eop) : outcome (e2e * eres) :=
  match o with
  | ESend to d sent => e2e_send s to d sent
  | EResponse from tx => Ret (e2e_response s from tx)
  | ETick => match timer_tick (e_time s) with Ret t => Ret (E2E (e_next s) (e_out s) t, ERes None []) | Crash => Crash end
  | ERun k =>
      match run_one k (e_time s) with
      | (t, RRan _ tx) => Ret (e2e_timed_out (E2E (e_next s) (e_out s) t) tx)
      | (t, _) => Ret (E2E (e_next s) (e_out s) t, ERes None [])
      end
  | EReset id => Ret (e2e_reset s id)
  end.
