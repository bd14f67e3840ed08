(* Log levels in the enclave, and what a fatal log statement does:
   enclave/util/log.h (LOG), log.cc, macros.h (CHECK), core.cc:320-327
   (a new level from the host), ecalls.cc:60-62 and socketmain.cc:165-167 (the
   first level), socketmain.cc:183-207 (RunServer), env/socket/socket.cc:23-60
   (the handler of SIGSEGV, SIGFPE and SIGILL).
   Simplified: a message is an abstract value; one thread at a time. *)
From Verif Require Import Base.
Open Scope Z_scope.

(* shared/proto/enclaveconfig.proto:12-21.  An enum of proto3 is open: a message
   may hold any 32-bit value. *)
Definition NONE := 0. Definition FATAL := 1. Definition ERROR := 2. Definition WARNING := 3.
Definition INFO := 4. Definition DEBUG := 5. Definition VERBOSE := 6. Definition MAX := 7.

(* The enclave as far as this goes: the level, what has been given to the
   environment's log, how many messages of the host have been taken. *)
Record enc := Enc { level : Z; logged : list (Z * bytes); taken : nat }.

(* log.h:42 and log.cc:23-29, as the statement  LOG(x) << body  : the body is
   evaluated and written only if the level says so, and if x is FATAL the
   process aborts then. *)
Definition log_stmt (x : Z) (body : enc -> enc * bytes) (e : enc) : outcome enc :=
  if x <=? level e then
    let '(e1, msg) := body e in
    if x =? FATAL then Crash else Ret {| level := level e1; logged := logged e1 ++ [(x, msg)]; taken := taken e1 |}
  else Ret e.
(* macros.h:13-18 *)
Definition check (b : bool) (msg : bytes) (e : enc) : outcome enc :=
  if b then Ret e else
  match log_stmt FATAL (fun e => (e, msg)) e with Crash => Crash | Ret _ => Crash (* abort() *) end.

(* log.cc:31-33 *)
Definition set_level (l : Z) (e : enc) : enc := {| level := l; logged := logged e; taken := taken e |}.
(* log.cc:12-17: the level of a process that starts. *)
Definition booted : enc := {| level := INFO; logged := []; taken := 0 |}.
(* ecalls.cc:60-62, socketmain.cc:165-167 *)
Definition init_level (l : Z) (e : enc) : enc := if l =? NONE then e else set_level l e.
(* core.cc:320-327: the answer (true for OK) and the enclave after it. *)
Definition set_log_level (l : Z) (e : enc) : enc * bool :=
  if MAX <=? l then (e, false) else (set_level l e, true).
Fixpoint requests (ls : list Z) (e : enc) : enc :=
  match ls with [] => e | l :: r => requests r (fst (set_log_level l e)) end.

(* socket.cc:23-25 LogFatalSignalHandler, without SA_RESETHAND: an instruction
   that faults is run again if the handler returns.  [n] times. *)
Fixpoint faulting (msg : bytes) (n : nat) (e : enc) : outcome enc :=
  match n with
  | O => Ret e
  | S k => match log_stmt FATAL (fun e => (e, msg)) e with Crash => Crash | Ret e' => faulting msg k e' end
  end.

(* socketmain.cc:197-201: a thread is  LOG(FATAL) << RunServerThread(..) .
   [n] is how many messages it takes before it ends with an error. *)
Definition server_thread (n : nat) (e : enc) : outcome enc :=
  log_stmt FATAL (fun e => ({| level := level e; logged := logged e; taken := taken e + n |}, [])) e.
(* Whether a thread, once started, takes messages from the host at all. *)
Definition serves (e : enc) : bool := FATAL <=? level e.

(* socket.go:167-180 (the levels of zap: -1 debug, 0 info, 1 warn, 2 error); a
   message of another level is dropped. *)
Definition socket_level (m : Z) : option Z :=
  if (m =? FATAL) || (m =? ERROR) then Some 2 else
  if m =? WARNING then Some 1 else
  if m =? INFO then Some 0 else
  if (m =? DEBUG) || (m =? VERBOSE) || (m =? MAX) then Some (-1) else None.
(* logging.go:20-52; Open Enclave's levels are 0 none, 1 fatal, 2 error,
   3 warning, 4 info, 5 verbose, 6 max, and sgx.cc:224-226 passes the number on. *)
Definition sgx_level (m : Z) : option Z :=
  Some (if (m =? 0) || (m =? 1) || (m =? 2) then 2 else if m =? 3 then 1 else if m =? 4 then 0 else
        if (m =? 5) || (m =? 6) then -1 else 2).
(* zap writes a message if its level is at least the configured one. *)
Definition shown (host_level : Z) (z : option Z) : bool :=
  match z with Some l => host_level <=? l | None => false end.

(* set_log_level.go:70-93 parseLogLevel, after ToUpper and TrimSpace; host and
   enclave level.  Simplified: the names are a type, not strings. *)
Inductive level_name := NFatal | NError | NWarning | NInfo | NDebug | NVerbose | NMax.
Definition parse_level (n : level_name) : Z * Z :=
  match n with
  | NFatal => (2, FATAL) | NError => (2, ERROR) | NWarning => (1, WARNING) | NInfo => (0, INFO)
  | NDebug => (-1, DEBUG) | NVerbose => (-1, VERBOSE) | NMax => (-1, MAX)
  end.
(* set_log_level.go:33-68 ServeHTTP, for a POST: the name if the form has a known one;
   [reach] whether the enclave can be reached.  The status and both after it. *)
Definition post_level (n : option level_name) (reach : bool) (host : Z) (e : enc) : N * Z * enc :=
  match n with
  | None => (400%N, host, e)
  | Some n =>
      let '(h, l) := parse_level n in
      if reach then
        let '(e', ok) := set_log_level l e in
        if ok then (200%N, h, e') else (500%N, h, e')
      else (500%N, h, e)
  end.
