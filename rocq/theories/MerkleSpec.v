(* What the integrity tree is for, in terms of the history of its leaves. *)
From Verif Require Import Merkle.

(* the hash a leaf currently stands for, and whether it exists *)
Definition effect (id : bytes) (a : option bytes) (o : mop) : option bytes :=
  match o with
  | MAdd j x | MUpdate j x => if beq j id then Some x else a
  | MRemove j => if beq j id then None else a
  end.
Definition current (id : bytes) (h : list mop) : option bytes := fold_left (effect id) h None.

(* leaves are created once, and only existing leaves are updated or destroyed *)
Definition well_used (h : list mop) : Prop :=
  forall h1 o h2, h = h1 ++ o :: h2 ->
    match o with
    | MAdd id _ => current id h1 = None
    | MUpdate id _ | MRemove id => current id h1 <> None
    end.

(* Memory tampering: the same objects, with any stored hash replaced by any
   other hash (of the same size); the root hash is kept apart. *)
Fixpoint same_part (p q : part) : Prop :=
  match p, q with
  | Leaf i, Leaf j => i = j
  | Node c s, Node d r => c = d /\ same_slots s r
  | _, _ => False
  end
with same_slots (s r : slots) : Prop :=
  match s, r with
  | SNil, SNil => True
  | SEmpty _ s', SEmpty _ r' => same_slots s' r'
  | SFull _ p s', SFull _ q r' => same_part p q /\ same_slots s' r'
  | _, _ => False
  end.
Fixpoint sized_part (p : part) : Prop :=
  match p with Leaf _ => True | Node _ s => sized_slots s end
with sized_slots (s : slots) : Prop :=
  match s with
  | SNil => True
  | SEmpty h s' => length h = 8%nat /\ sized_slots s'
  | SFull h p s' => length h = 8%nat /\ sized_part p /\ sized_slots s'
  end.
(* t' is t with some of its memory overwritten, except the root hash *)
Definition tampered (t t' : tree) : Prop :=
  roothash t' = roothash t /\ rootcurr t' = rootcurr t /\
  same_slots (root t) (root t') /\ sized_slots (root t').

(* every hash given to the tree has the 8 bytes its C++ type says *)
Definition op_sized (o : mop) : Prop :=
  match o with MAdd _ x | MUpdate _ x => length x = 8%nat | MRemove _ => True end.

(* Memory under attack: after an honest history, tampering any number of times,
   between changes that verify the leaf before they update or destroy it. *)
Inductive attacked (sip8 : bytes -> bytes) : list mop -> tree -> Prop :=
| att_start h t : well_used h -> Forall op_sized h ->
    mrun sip8 (empty_tree sip8) h = Ret t -> attacked sip8 h t
| att_tamper h t t' : attacked sip8 h t -> tampered t t' -> attacked sip8 h t'
| att_update h t id c x u : attacked sip8 h t -> verify sip8 id c t = Ret V_OK ->
    length x = 8%nat -> update sip8 id x t = Ret u -> attacked sip8 (h ++ [MUpdate id x]) u
| att_remove h t id c u : attacked sip8 h t -> verify sip8 id c t = Ret V_OK ->
    remove sip8 id t = Ret u -> attacked sip8 (h ++ [MRemove id]) u.
