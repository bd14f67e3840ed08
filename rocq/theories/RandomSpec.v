(* What it means that bytes are random: they are the source's bytes. *)
From Verif Require Import Base Util Random.
Open Scope nat_scope.

(* The bytes a source hands out until it fails, in order. *)
Fixpoint handed (l : list answer) : bytes :=
  match l with Gave bs :: l' => bs ++ handed l' | _ => [] end.
Fixpoint handed_words (l : list (option N)) : bytes :=
  match l with Some r :: l' => be64 r ++ handed_words l' | _ => [] end.
Definition source (e : env) : bytes :=
  match e with
  | SocketSim l | NsmSim l | NsmChip l => handed l
  | SocketCpu l => handed_words l
  | Sgx a => handed [a]
  end.

(* The source fails once, or (oe_random) hands out less than asked. *)
Definition source_fails (e : env) : Prop :=
  match e with
  | SocketSim l | NsmSim l | NsmChip l => In Failed l
  | SocketCpu l => In None l
  | Sgx _ => True
  end.

(* The environments of machines in use, and the socket one simulated; not the
   simulated Nitro one. *)
Definition not_simulated_nitro (e : env) : Prop :=
  match e with NsmSim _ => False | _ => True end.

(* Memory that differs only in the [size] bytes at [pos]. *)
Definition only_within (pos size : nat) (mem mem' : bytes) : Prop :=
  length mem' = length mem /\ firstn pos mem' = firstn pos mem /\
  skipn (pos + size) mem' = skipn (pos + size) mem.

(* What is in the [size] bytes at [pos]. *)
Definition at_ (pos size : nat) (mem : bytes) : bytes := firstn size (skipn pos mem).
