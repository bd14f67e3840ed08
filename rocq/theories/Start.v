(* Model of how an SGX enclave is started and given messages: enclave/ecalls/ecalls.cc, and
   the locking of host/enclave/sgx.go.

   The host calls svr2_init and svr2_input_message from any number of threads at any time.
   A configuration is a number; whether it says "simulated" is [c_sim].  Creating the core and
   giving it a message have any result (Core::Create is modelled in Core*.v, Receive in many
   files).  Log levels, counters and the seed of weak randomness are left out. *)
From Coq Require Export List NArith Arith Bool Lia.
Export ListNotations.

Inductive gstate := Uninit | Initiating | Initiated.   (* ecalls.cc:33-37 *)
Record config := Config { c_sim : bool; c_num : N }.
Definition core := (config * N)%type.                   (* its configuration and its peer id *)

Inductive res :=
| InitOK (pid : N)       (* svr2_init returned OK and this peer id *)
| ReInit | ConfigParse | CreateErr (e : N)
| NoInit | MessageParse
| Received (c : option core) (env : option bool)    (* Receive ran on this core in this environment *)
| Crashed.               (* used an environment or a core that is not there *)
(* where a call is *)
Inductive pc :=
| PInit (raw : option config)          (* before 50; None: the config does not parse *)
| PParse (raw : option config)         (* 54 *)
| PEnv (c : config)                    (* 62: the environment is replaced *)
| PCreate (c : config)                 (* 63-66: uses the environment *)
| PStore (c : config) (pid : N)        (* 71 *)
| PReady                               (* 72-74: uses the core *)
| PMsg (parses : bool)                 (* before 84 *)
| PMsgParse (parses : bool)            (* 87-90 *)
| PRecv (c : option core) (env : option bool) (* 91, in Receive *)
| PDone (r : res).

Record enclave := Enclave { g : gstate; cr : option core; env : option bool; calls : list pc }.
Definition enclave0 : enclave := Enclave Uninit None None [].

Fixpoint set_nth {A} (i : nat) (x : A) (l : list A) : list A :=
  match l, i with [], _ => [] | _ :: l', O => x :: l' | y :: l', S i' => y :: set_nth i' x l' end.

Inductive event :=
| ECallInit (raw : option config) | ECallMsg (parses : bool)
| EStep (i : nat) (created : N + N).   (* call i goes on; if it creates the core: the error, or the peer id *)

(* one atomic part of call i *)
Definition step_pc (s : enclave) (p : pc) (created : N + N) : option (gstate * option core * option bool * pc) :=
  match p with
  | PInit raw =>
      (* 48-52: compare_exchange *)
      match g s with
      | Uninit => Some (Initiating, cr s, env s, PParse raw)
      | _ => Some (g s, cr s, env s, PDone ReInit)
      end
  | PParse None => Some (Uninit, cr s, env s, PDone ConfigParse)   (* 55-58 *)
  | PParse (Some c) => Some (g s, cr s, env s, PEnv c)
  | PEnv c => Some (g s, cr s, Some (c_sim c), PCreate c)          (* env/sgx/sgx.cc:317-320 *)
  | PCreate c =>
      match env s with
      | None => Some (g s, cr s, env s, PDone Crashed)
      | Some _ =>
          match created with
          | inl e => Some (Uninit, cr s, env s, PDone (CreateErr e))  (* 67-70 *)
          | inr pid => Some (g s, cr s, env s, PStore c pid)
          end
      end
  | PStore c pid => Some (g s, Some (c, pid), env s, PReady)
  | PReady =>
      match cr s with
      | None => Some (g s, cr s, env s, PDone Crashed)
      | Some (_, pid) => Some (Initiated, cr s, env s, PDone (InitOK pid))
      end
  | PMsg parses =>
      match g s with
      | Initiated => Some (g s, cr s, env s, PMsgParse parses)
      | _ => Some (g s, cr s, env s, PDone NoInit)
      end
  | PMsgParse false => Some (g s, cr s, env s, PDone MessageParse)
  | PMsgParse true =>
      match cr s, env s with
      | Some _, Some _ => Some (g s, cr s, env s, PRecv (cr s) (env s))
      | _, _ => Some (g s, cr s, env s, PDone Crashed)
      end
  | PRecv c e => Some (g s, cr s, env s, PDone (Received c e))
  | PDone _ => None
  end.
Definition step (s : enclave) (e : event) : option enclave :=
  match e with
  | ECallInit raw => Some (Enclave (g s) (cr s) (env s) (calls s ++ [PInit raw]))
  | ECallMsg p => Some (Enclave (g s) (cr s) (env s) (calls s ++ [PMsg p]))
  | EStep i created =>
      match nth_error (calls s) i with
      | None => None
      | Some p =>
          match step_pc s p created with
          | None => None
          | Some (g', cr', env', p') => Some (Enclave g' cr' env' (set_nth i p' (calls s)))
          end
      end
  end.
Fixpoint run (s : enclave) (es : list event) : option enclave :=
  match es with [] => Some s | e :: es' => match step s e with Some s' => run s' es' | None => None end end.

(* --- the host: sgx.go:127-184 Init, 213-221 Close ------------------------------ *)
(* A Go function is a list of statements; deferred ones run when it returns, the last one
   first.  The mutex cannot be taken again by who holds it. *)
Inductive stmt := SLock | SUnlock | SDefer (d : list stmt) | SReturn.
Inductive ended := Returned (held : bool) | Blocked.   (* for ever *)
Fixpoint exec_plain (held : bool) (b : list stmt) : ended :=   (* a body without defer: Close's, with its Unlock put last *)
  match b with
  | [] => Returned held
  | SLock :: b' => if held then Blocked else exec_plain true b'
  | SUnlock :: b' => exec_plain false b'
  | SDefer _ :: b' => exec_plain held b'
  | SReturn :: _ => Returned held
  end.
Fixpoint run_defers (held : bool) (ds : list (list stmt)) : ended :=
  match ds with
  | [] => Returned held
  | d :: ds' => match exec_plain held d with Returned h => run_defers h ds' | Blocked => Blocked end
  end.
Fixpoint exec (held : bool) (ds : list (list stmt)) (b : list stmt) : ended :=
  match b with
  | [] | SReturn :: _ => run_defers held ds
  | SLock :: b' => if held then Blocked else exec true ds b'
  | SUnlock :: b' => exec false ds b'
  | SDefer d :: b' => exec held (d :: ds) b'
  end.
(* 213-221 *)
Definition go_close : list stmt := [SLock; SUnlock].
(* what may go wrong in Init, in order *)
Inductive fails := NoFailure | AlreadyInitiated | MarshalFails | CreateFails | InitCallFails | InitReturnsError | SignalFails.
Definition go_init (f : fails) : list stmt :=
  [SLock; SDefer [SUnlock]] ++
  match f with AlreadyInitiated | MarshalFails | CreateFails => [SReturn]   (* 131-150 *)
  | _ => [SDefer (match f with NoFailure => [] | _ => go_close end); SReturn]   (* 155-159, and 163-184 *)
  end.
Definition init_error (f : fails) : bool := match f with NoFailure => false | _ => true end.
