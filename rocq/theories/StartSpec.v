(* Vocabulary for statements about the start of an enclave. *)
From Verif Require Import Start.

Definition reachable (s : enclave) : Prop := exists es, run enclave0 es = Some s.
Definition answered (s : enclave) (i : nat) (r : res) : Prop := nth_error (calls s) i = Some (PDone r).
(* call i is in svr2_init, past the check that there is no other *)
Definition in_init (p : pc) : bool := match p with PParse _ | PEnv _ | PCreate _ | PStore _ _ | PReady => true | _ => false end.
(* call i replaces the environment or the core with its next step *)
Definition replaces (p : pc) : bool := match p with PEnv _ | PStore _ _ => true | _ => false end.
(* call i uses the environment or the core *)
Definition uses (p : pc) : bool := match p with PCreate _ | PReady | PRecv _ _ => true | _ => false end.
