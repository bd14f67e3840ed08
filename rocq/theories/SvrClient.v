(* The command-line client host/cmd/svr2client/main.go: whom it takes for the user,
   what it asks, and the status it leaves.  Simplified: the flags are parsed (a flag
   that is not known ends the process with 2), the connection with its handshake is
   an arbitrary function (web/client/svr.go), what is printed is left out. *)
From Verif Require Import Base Codec.
Open Scope N_scope.

(* client.proto Request.inner, Response.inner; a status is its number, 1 is OK. *)
Inductive request := QBackup (data pin : bytes) (max_tries : N) | QExpose (data : bytes) | QRestore (pin : bytes) | QDelete.
Inductive response := RBackup (status : N) | RExpose (status : N) | RRestore (status : N) (data : bytes) | RDelete | ROther.

Section Client.
Variable sha256 : bytes -> bytes.
(* newClient and Send2 for a user: None with any error. *)
Variable connect : bytes -> bool.
Variable send : bytes -> request -> option response.

(* main.go:99-106 toUser; hex.DecodeString accepts what hex_to_bytes does. *)
Definition to_user (raw : bytes) : bytes :=
  match hex_to_bytes raw with
  | Hex_OK bs => if Nat.eqb (length bs) 16 then raw else bytes_to_hex (firstn 16 (sha256 raw))
  | _ => bytes_to_hex (firstn 16 (sha256 raw))
  end.

(* true: no error.  main.go:182-213 bytesForUser, runBackup *)
Definition run_backup (user : bytes) : bool :=
  if negb (connect user) then false else
  let b := sha256 user in
  match send user (QBackup b b 5) with Some (RBackup s) => s =? 1 | _ => false end.
(* main.go:215-239 runExpose *)
Definition run_expose (user : bytes) : bool :=
  if negb (connect user) then false else
  match send user (QExpose (sha256 user)) with Some (RExpose s) => s =? 1 | _ => false end.
(* main.go:134-155 runRestore *)
Definition run_restore (user hex_pin : bytes) : bool :=
  if negb (connect user) then false else
  match hex_to_bytes hex_pin with
  | Hex_OK pin => match send user (QRestore pin) with Some _ => true | None => false end
  | _ => false
  end.
(* main.go:241-253 runDelete *)
Definition run_delete (user : bytes) : bool :=
  if negb (connect user) then false else
  match send user QDelete with Some _ => true | None => false end.

(* main.go:157-180 runLoadTest, for a count that an int32 holds: the users that are
   backed up, each once whatever the order of the goroutines (LoadTest.v has the
   counter), and the error, which there never is.  [name] prints "%s_%d". *)
Variable name : bytes -> N -> bytes.
Definition load_users (user : bytes) (count : nat) : list bytes :=
  map (fun u => to_user (name user (N.of_nat u))) (seq 0 count).
Definition run_load_test (user : bytes) (parallel count : nat) : bool * list bool :=
  match parallel with
  | O => (true, [])
  | S _ => (true, map run_backup (load_users user count))
  end.

Inductive subcommand := Backup | Expose | Restore (hex_pin : bytes) | Delete | Load (parallel count : nat) | Unknown.
(* main.go:49-97 main: os.Args[1], with --user (or test123); the status
   of the process. *)
Definition exit_of (ok : bool) : N := if ok then 0 else 1.
Definition main (c : option subcommand) (user_flag : bytes) : outcome N :=
  let user := to_user user_flag in
  match c with
  | None => Crash                              (* os.Args[1] out of range *)
  | Some Backup => Ret (exit_of (run_backup user))
  | Some Expose => Ret (exit_of (run_expose user))
  | Some (Restore p) => Ret (exit_of (run_restore user p))
  | Some Delete => Ret (exit_of (run_delete user))
  | Some (Load p n) => Ret (exit_of (fst (run_load_test user p n)))
  | Some Unknown => Ret 0                      (* no case of the switch *)
  end.
End Client.
