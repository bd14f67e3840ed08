(* What stays in memory of the secrets in the rows of the four databases:
   enclave/util/bytes.cc:8-20 (MemZeroS), and where rows are made, moved and removed
   in enclave/db/db2.cc, db3.cc, db4.cc and db5.cc.  Memory is slots, each with room
   for the secret part of a row (its other fields are left out); which slot a row gets
   is up to the allocator, and nothing else writes to a slot once it is free.
   Simplified: what the compiler may keep elsewhere, other local copies, and messages
   that carry secrets are left out; memset before an erasure is taken to write. *)
From Verif Require Import Base.
Open Scope nat_scope.

Definition memory := nat -> nat -> N.   (* slot, offset *)
Definition poke (m : memory) (slot off : nat) (b : N) : memory :=
  fun s o => if Nat.eqb s slot && Nat.eqb o off then b else m s o.

(* bytes.cc:8-20 MemZeroS: from an offset on *)
Fixpoint mem_zero (m : memory) (slot d size : nat) : memory :=
  match size with O => m | S k => mem_zero (poke m slot d 0%N) slot (d + 1) k end.
(* std::copy, operator= of arrays: bytes from an offset on *)
Fixpoint copy_in (m : memory) (slot d : nat) (s : bytes) : memory :=
  match s with [] => m | b :: r => copy_in (poke m slot d b) slot (d + 1) r end.
(* operator= of the arrays of another row *)
Definition copy_slot (m : memory) (from to size : nat) : memory :=
  copy_in m to 0 (map (m from) (seq 0 size)).

(* What a kind of row does of itself. *)
Record rowkind := RowKind { size : nat;
  update_clears : bool;   (* a row is cleared before a secret is put into it *)
  erase_clears : bool;    (* a row is cleared before it is erased *)
  move_clears : bool;     (* the move constructor clears what it moved from *)
  dtor_clears : bool }.   (* the destructor clears *)
(* db2.h:96-110, db2.cc:151-157, 169-175, 201-205, 218-225: 48 bytes of data, 32 of PIN *)
Definition db2_row : rowkind := RowKind 80 true true false false.
(* db3.h:109-114, db3.cc:281-288, 323-326, 340-345 *)
Definition db3_row : rowkind := RowKind 32 false false false false.
(* db4.h:115-131, db4.cc:822-850: a point, a scalar, a key, a scalar *)
Definition db4_row : rowkind := RowKind 128 false false true true.
(* db4.h:140-151, db4.cc:852-873 RotateRow: a scalar, a key *)
Definition db4_rotate_row : rowkind := RowKind 64 false false true true.
(* db5.h:93-101, db5.cc:198-212 *)
Definition db5_row : rowkind := RowKind 32 false false false true.

Record state := State { mem : memory; rows : N -> option nat }.
Definition init : state := State (fun _ _ => 0%N) (fun _ => None).
Definition set_row (r : N -> option nat) (id : N) (v : option nat) : N -> option nat :=
  fun i => if N.eqb i id then v else r i.

Definition destroy (k : rowkind) (m : memory) (slot : nat) : memory := if dtor_clears k then mem_zero m slot 0 (size k) else m.

(* A backup is stored: db2.cc:159-175, db3.cc:281-288, db4.cc:498-513, db5.cc:131-143.
   A row that is new is made in [slot]. *)
Definition store (k : rowkind) (s : state) (id : N) (secret : bytes) (slot : nat) : state :=
  let at_ := match rows s id with Some l => l | None => slot end in
  let m := if update_clears k then mem_zero (mem s) at_ 0 (size k) else mem s in
  State (copy_in m at_ 0 secret) (set_row (rows s) id (Some at_)).
(* A backup is removed: db2.cc:200-205, 218-225, db3.cc:323-326, 340-345,
   db4.cc:610-615, 682-686, 785, 817, db5.cc:165-170. *)
Definition remove (k : rowkind) (s : state) (id : N) : state :=
  match rows s id with
  | None => s
  | Some l =>
      let m := if erase_clears k then mem_zero (mem s) l 0 (size k) else mem s in
      State (destroy k m l) (set_row (rows s) id None)
  end.
(* A row is loaded from another replica: made in [tmp], on the stack, and moved to its
   node: db2.cc:343-358, db3.cc:185-197, db4.cc:374-403, db5.cc:235-246; a rotation
   that begins does the same (db4.cc:743-749). *)
Definition load (k : rowkind) (s : state) (id : N) (secret : bytes) (tmp slot : nat) : state :=
  let m1 := copy_in (mem s) tmp 0 secret in
  let m2 := copy_slot m1 tmp slot (size k) in
  let m3 := if move_clears k then mem_zero m2 tmp 0 (size k) else m2 in
  State (destroy k m3 tmp) (set_row (rows s) id (Some slot)).

Inductive op := Store (id : N) (secret : bytes) (slot : nat) | Remove (id : N) | Load (id : N) (secret : bytes) (tmp slot : nat).
Definition step (k : rowkind) (s : state) (o : op) : state :=
  match o with Store i b l => store k s i b l | Remove i => remove k s i | Load i b t l => load k s i b t l end.

(* What can happen: an allocator gives what is free; secrets have their size, or at
   most it where rows are cleared first; rows are loaded in order, each once. *)
Definition free (s : state) (l : nat) : Prop := forall id, rows s id <> Some l.
Definition fits (k : rowkind) (b : bytes) : Prop := if update_clears k then length b <= size k else length b = size k.
Definition allowed (k : rowkind) (s : state) (o : op) : Prop :=
  match o with
  | Store _ b l => fits k b /\ free s l
  | Remove _ => True
  | Load i b t l => fits k b /\ free s t /\ free s l /\ t <> l /\ rows s i = None
  end.
(* A history, the latest first. *)
Inductive reach (k : rowkind) : list op -> state -> Prop :=
| reach_init : reach k [] init
| reach_step h s o : reach k h s -> allowed k s o -> reach k (o :: h) (step k s o).
