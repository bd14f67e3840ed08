(* Model of enclave/client/client.cc ClientManager: ids, lookup, and which key and
   attestation a new client gets.

   Keys are numbers (the n-th key generated); the attestation is what was put into
   it: a key, a group configuration and limits (an element of A).  Whether making
   evidence works is an input.  Functions that take the lock more than once are cut
   there: other threads may run in between. *)
From Verif Require Export Base Hist.

Section Client.
Context {A : Type}.

Record attestation := Att { at_key : N; at_info : A }.
(* what a connection is made with: client.cc:59-86 Init *)
Record client := Client { cl_auth : bytes; cl_key : N; cl_att : option attestation }.
(* a thread inside one of the functions, between two critical sections *)
Inductive pending :=
| PNew (auth : bytes) (id : N) (key : N) (att : option attestation)      (* NewClient, after ClientArgs *)
| PRotate (key : N) (att : attestation)                                  (* RotateKeyAndRefreshAttestation, evidence made *)
| PRefreshArgs (key : N) (info : A)                                      (* RefreshAttestation, key read *)
| PRefresh (key : N) (att : attestation).                                (* RefreshAttestation, evidence made *)
(* client.h:84-88, client.cc:26 id_gen, the number of keys made, threads *)
Record manager := Manager {
  c_next : N; c_keys : N; c_key : N; c_att : option attestation;
  c_clients : list (N * client); c_pending : list pending }.
(* client.cc:26, client.h:66 *)
Definition new_manager : manager := Manager 1 1 0 None [] [].

Fixpoint find_client (id : N) (l : list (N * client)) : option client :=
  match l with [] => None | (i, c) :: l' => if i =? id then Some c else find_client id l' end.
Definition drop_client (id : N) (l : list (N * client)) : list (N * client) := filter (fun p => negb (fst p =? id)) l.
Fixpoint remove_nth {X} (n : nat) (l : list X) : list X :=
  match n, l with _, [] => [] | O, _ :: l' => l' | S n', x :: l' => x :: remove_nth n' l' end.

(* client.cc:51: a 64-bit counter *)
Definition next_id (n : N) : N := (n + 1) mod 2 ^ 64.

Inductive cop :=
| CNew (auth : bytes) (init_ok : bool)   (* NewClient up to ClientArgs and Init *)
| CRotate (info : A) (evidence_ok : bool)
| CRefresh (info : A)
| CEvidence (i : nat) (ok : bool)        (* a RefreshAttestation thread makes its evidence *)
| CFinish (i : nat)                      (* a thread takes the lock and finishes *)
| CGet (id : N)
| CRemove (id : N).
(* CrOpening and CrAttested are not return values: they mark when NewClient reads
   what it uses and when a refresh or rotation takes effect. *)
Inductive cres :=
| CrNone | CrErr | CrStarted
| CrOpening (id : N) | CrNew (id : N) (c : client)
| CrAttested (rotation : bool) (a : attestation)
| CrGet (c : option client) | CrRemoved (b : bool).

Definition cstep (s : manager) (o : cop) : outcome (manager * cres) :=
  match o with
  | CNew auth init_ok =>
      (* client.cc:46-54 takes the id, 158-167 NewClient, 267-270 ClientArgs *)
      let id := c_next s in
      let s' p := Manager (next_id (c_next s)) (c_keys s) (c_key s) (c_att s) (c_clients s) (p ++ c_pending s) in
      if init_ok then Ret (s' [PNew auth id (c_key s) (c_att s)], CrOpening id) else Ret (s' [], CrErr)
  | CRotate info ok =>
      (* client.cc:209-219: a new key and evidence for it; 251-265 GetAttestation *)
      let s' p := Manager (c_next s) (c_keys s + 1) (c_key s) (c_att s) (c_clients s) (p ++ c_pending s) in
      if ok then Ret (s' [PRotate (c_keys s) (Att (c_keys s) info)], CrStarted) else Ret (s' [], CrErr)
  | CRefresh info =>
      (* client.cc:228-229 *)
      Ret (Manager (c_next s) (c_keys s) (c_key s) (c_att s) (c_clients s) (PRefreshArgs (c_key s) info :: c_pending s), CrStarted)
  | CEvidence i ok =>
      (* client.cc:230-238 *)
      match nth_error (c_pending s) i with
      | Some (PRefreshArgs key info) =>
          let rest := remove_nth i (c_pending s) in
          let p := if ok then PRefresh key (Att key info) :: rest else rest in
          Ret (Manager (c_next s) (c_keys s) (c_key s) (c_att s) (c_clients s) p, if ok then CrStarted else CrErr)
      | _ => Ret (s, CrNone)
      end
  | CFinish i =>
      let rest := remove_nth i (c_pending s) in
      match nth_error (c_pending s) i with
      | Some (PNew auth id key att) =>
          (* client.cc:168-173 *)
          let c := Client auth key att in
          Ret (Manager (c_next s) (c_keys s) (c_key s) (c_att s) ((id, c) :: drop_client id (c_clients s)) rest, CrNew id c)
      | Some (PRotate key att) =>
          (* client.cc:221-225 *)
          Ret (Manager (c_next s) (c_keys s) key (Some att) (c_clients s) rest, CrAttested true att)
      | Some (PRefresh key att) =>
          (* client.cc:240-248 *)
          Ret (Manager (c_next s) (c_keys s) key (Some att) (c_clients s) rest, CrAttested false att)
      | _ => Ret (s, CrNone)
      end
  | CGet id =>
      (* client.cc:176-182 GetClient *)
      Ret (s, CrGet (find_client id (c_clients s)))
  | CRemove id =>
      (* client.cc:184-192 RemoveClient *)
      match find_client id (c_clients s) with
      | None => Ret (s, CrRemoved false)
      | Some _ => Ret (Manager (c_next s) (c_keys s) (c_key s) (c_att s) (drop_client id (c_clients s)) (c_pending s), CrRemoved true)
      end
  end.
End Client.
Arguments attestation : clear implicits.
Arguments client : clear implicits.
Arguments manager : clear implicits.
Arguments cop : clear implicits.
Arguments cres : clear implicits.
Arguments pending : clear implicits.
