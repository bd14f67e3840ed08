(* Model of enclave/merkle/merkle.{h,cc}: the in-memory hash tree over the rows.

   A Node's children_/hashes_ arrays are a [slots] list; the slot of a present
   child carries the child itself (instead of a pointer to it and its parent_
   pointer back) and the stored hash its hptr_ points to.  A Leaf is identified
   by a key (the DBs embed one Leaf in each row, so the key is the row's).  The
   flag CURR is a field of the node; ROOT is the topmost position.  Not
   modelled: Leaf's move constructor and Replace (which only move a pointer),
   metrics, and the destruction of the whole tree. *)
From Verif Require Export Base SMap Util.

Definition NODE_SIZE : nat := 5.               (* merkle.h:27 MERKLE_NODE_SIZE *)
Definition zero_hash : bytes := zeros 8.       (* merkle.cc:16 *)

Inductive part := Leaf (id : bytes) | Node (curr : bool) (s : slots)
with slots :=
| SNil
| SEmpty (h : bytes) (s : slots)               (* children_[i] == nullptr, hashes_[i] = h *)
| SFull (h : bytes) (p : part) (s : slots).
Record tree := Tree { roothash : bytes; rootcurr : bool; root : slots }.

Fixpoint hashes (s : slots) : list bytes :=
  match s with SNil => [] | SEmpty h s' => h :: hashes s' | SFull h _ s' => h :: hashes s' end.
(* merkle.cc:83-91 Parts *)
Fixpoint parts (s : slots) : nat :=
  match s with SNil => 0 | SEmpty _ s' => parts s' | SFull _ _ s' => S (parts s') end.
Definition full (s : slots) : bool := Nat.eqb (parts s) NODE_SIZE.     (* merkle.h Full *)
(* merkle.cc:38-43 Init: all hashes zero, no children *)
Definition fresh_slots : slots :=
  SEmpty zero_hash (SEmpty zero_hash (SEmpty zero_hash (SEmpty zero_hash (SEmpty zero_hash SNil)))).

(* merkle.cc:93-102 Insert: first free slot; its hash is left alone.  None is
   the CHECK "Insert on full node". *)
Fixpoint insert (p : part) (s : slots) : option slots :=
  match s with
  | SNil => None
  | SEmpty h s' => Some (SFull h p s')
  | SFull h q s' => option_map (SFull h q) (insert p s')
  end.

(* merkle.cc:142-144: i new nodes one below the other, the last of which becomes
   curr_ and receives the leaf; with i = 0, the leaf itself. *)
Fixpoint chain (i : nat) (id : bytes) : part :=
  match i with
  | O => Leaf id
  | S i' => Node (Nat.eqb i' 0)
      (SFull zero_hash (chain i' id)
        (SEmpty zero_hash (SEmpty zero_hash (SEmpty zero_hash (SEmpty zero_hash SNil)))))
  end.

(* merkle.cc:113-151 CurrentWithSpace followed by Leaf's Insert (109-111, 28-30):
   walk from curr_ up to the first node with space.  [NeedSpace i x]: everything
   from curr_ up to and including x is full, i nodes have to be built below
   whatever has space; the CURR flag has been cleared (145-149). *)
Inductive grow (A : Type) := NotHere | NeedSpace (i : nat) (x : A) | Grown (x : A) | GrowCrash.
Arguments NotHere {A}. Arguments NeedSpace {A}. Arguments Grown {A}. Arguments GrowCrash {A}.
Definition gput {A} (p : part) (s : slots) (k : slots -> A) : grow A :=
  match insert p s with Some s' => Grown (k s') | None => GrowCrash end.
Fixpoint grow_part (id : bytes) (p : part) : grow part :=
  match p with
  | Leaf _ => NotHere
  | Node true s => if full s then NeedSpace 1 (Node false s) else gput (Leaf id) s (Node true)
  | Node false s =>
      match grow_slots id s with
      | NotHere => NotHere
      | GrowCrash => GrowCrash
      | Grown s' => Grown (Node false s')
      | NeedSpace i s' => if full s' then NeedSpace (S i) (Node false s') else gput (chain i id) s' (Node false)
      end
  end
with grow_slots (id : bytes) (s : slots) : grow slots :=
  match s with
  | SNil => NotHere
  | SEmpty h s' =>
      match grow_slots id s' with
      | NotHere => NotHere | GrowCrash => GrowCrash
      | NeedSpace i x => NeedSpace i (SEmpty h x) | Grown x => Grown (SEmpty h x)
      end
  | SFull h p s' =>
      match grow_part id p with
      | NeedSpace i x => NeedSpace i (SFull h x s')
      | Grown x => Grown (SFull h x s')
      | GrowCrash => GrowCrash
      | NotHere =>
          match grow_slots id s' with
          | NotHere => NotHere | GrowCrash => GrowCrash
          | NeedSpace i x => NeedSpace i (SFull h p x) | Grown x => Grown (SFull h p x)
          end
      end
  end.

(* [sip8] below is sip_full.Hash8 under the process's random key. *)

(* merkle.cc:34-36 ComputeCurrent *)
Definition compute (sip8 : bytes -> bytes) (s : slots) : bytes := sip8 (concat (hashes s)).

(* merkle.cc:190-199 Tree() *)
Definition empty_tree (sip8 : bytes -> bytes) : tree := Tree (compute sip8 fresh_slots) true fresh_slots.

(* merkle.cc:109-151 Leaf(Tree* ): the tree with a new leaf whose hash is not set
   yet.  Lines 117-141 put a new root on top when everything is full. *)
Definition new_leaf (id : bytes) (t : tree) : outcome tree :=
  match grow_part id (Node (rootcurr t) (root t)) with
  | Grown (Node c s) => Ret (Tree (roothash t) c s)
  | NeedSpace i old =>
      match insert old fresh_slots with
      | Some (SFull _ old' s) =>
          match insert (chain i id) (SFull (roothash t) old' s) with
          | Some s' => Ret (Tree (roothash t) false s')
          | None => Crash
          end
      | _ => Crash
      end
  | _ => Crash
  end.

(* merkle.cc:177-180 Leaf::Update and 53-56 Node::Update: set the leaf's hash,
   recompute every node's hash up to the root *)
Fixpoint update_part (sip8 : bytes -> bytes) (id h : bytes) (p : part) : option (part * bytes) :=
  match p with
  | Leaf j => if beq j id then Some (Leaf j, h) else None
  | Node c s => match update_slots sip8 id h s with Some s' => Some (Node c s', compute sip8 s') | None => None end
  end
with update_slots (sip8 : bytes -> bytes) (id h : bytes) (s : slots) : option slots :=
  match s with
  | SNil => None
  | SEmpty g s' => option_map (SEmpty g) (update_slots sip8 id h s')
  | SFull g p s' =>
      match update_part sip8 id h p with
      | Some (p', g') => Some (SFull g' p' s')
      | None => option_map (SFull g p) (update_slots sip8 id h s')
      end
  end.
Definition update (sip8 : bytes -> bytes) (id h : bytes) (t : tree) : outcome tree :=
  match update_slots sip8 id h (root t) with
  | Some s => Ret (Tree (compute sip8 s) (rootcurr t) s)
  | None => Crash
  end.

(* merkle.cc:167-175 ~Part and 58-68 Node::Remove: clear the slot, recompute
   upwards, and delete nodes that became empty unless CURR or ROOT.  (The code
   recomputes the path once per deleted node; the last time is what remains.)
   [Some None] means the slot becomes empty. *)
Fixpoint remove_part (sip8 : bytes -> bytes) (id : bytes) (p : part) : option (option (part * bytes)) :=
  match p with
  | Leaf j => if beq j id then Some None else None
  | Node c s =>
      match remove_slots sip8 id s with
      | None => None
      | Some s' => if (Nat.eqb (parts s') 0 && negb c)%bool then Some None else Some (Some (Node c s', compute sip8 s'))
      end
  end
with remove_slots (sip8 : bytes -> bytes) (id : bytes) (s : slots) : option slots :=
  match s with
  | SNil => None
  | SEmpty g s' => option_map (SEmpty g) (remove_slots sip8 id s')
  | SFull g p s' =>
      match remove_part sip8 id p with
      | Some None => Some (SEmpty zero_hash s')
      | Some (Some (p', g')) => Some (SFull g' p' s')
      | None => option_map (SFull g p) (remove_slots sip8 id s')
      end
  end.
Definition remove (sip8 : bytes -> bytes) (id : bytes) (t : tree) : outcome tree :=
  match remove_slots sip8 id (root t) with
  | Some s => Ret (Tree (compute sip8 s) (rootcurr t) s)
  | None => Crash
  end.

(* merkle.cc:153-165 Leaf::Verify: the leaf's hash, then every node up to the
   root.  The pair is (leaf matches, all nodes match). *)
Fixpoint verify_part (sip8 : bytes -> bytes) (id computed : bytes) (stored : bytes) (p : part) : option (bool * bool) :=
  match p with
  | Leaf j => if beq j id then Some (beq computed stored, true) else None
  | Node _ s =>
      match verify_slots sip8 id computed s with
      | Some (l, n) => Some (l, n && beq (compute sip8 s) stored)%bool
      | None => None
      end
  end
with verify_slots (sip8 : bytes -> bytes) (id computed : bytes) (s : slots) : option (bool * bool) :=
  match s with
  | SNil => None
  | SEmpty _ s' => verify_slots sip8 id computed s'
  | SFull h p s' =>
      match verify_part sip8 id computed h p with
      | Some r => Some r
      | None => verify_slots sip8 id computed s'
      end
  end.
Inductive verdict := V_OK | V_VerifyLeaf | V_VerifyNode.
(* Crash: there is no such leaf *)
Definition verify (sip8 : bytes -> bytes) (id computed : bytes) (t : tree) : outcome verdict :=
  match verify_slots sip8 id computed (root t) with
  | None => Crash
  | Some (false, _) => Ret V_VerifyLeaf
  | Some (true, n) => Ret (if (n && beq (compute sip8 (root t)) (roothash t))%bool then V_OK else V_VerifyNode)
  end.

(* The DBs construct a leaf and update it at once (db2.cc:163-176, 343-356). *)
Definition add (sip8 : bytes -> bytes) (id h : bytes) (t : tree) : outcome tree :=
  match new_leaf id t with Ret t' => update sip8 id h t' | Crash => Crash end.
Inductive mop := MAdd (id h : bytes) | MUpdate (id h : bytes) | MRemove (id : bytes).
Definition mstep (sip8 : bytes -> bytes) (t : tree) (o : mop) : outcome tree :=
  match o with MAdd id h => add sip8 id h t | MUpdate id h => update sip8 id h t | MRemove id => remove sip8 id t end.
Fixpoint mrun (sip8 : bytes -> bytes) (t : tree) (h : list mop) : outcome tree :=
  match h with
  | [] => Ret t
  | o :: h' => match mstep sip8 t o with Ret t' => mrun sip8 t' h' | Crash => Crash end
  end.
