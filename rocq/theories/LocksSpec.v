(* Deadlock. *)
From Verif Require Export Locks.

Definition reachable (threads : nat) (s : state) : Prop := exists es, run (start threads) es = Some s.

(* thread [i] can only go on when [l] is free *)
Definition wants (s : state) (i : nat) (l : lock) : Prop := exists k, nth_error (threads s) i = Some (Lock l k).
Definition holder (s : state) (i : nat) (l : lock) : Prop := In (l, i) (held s).
(* threads each of which waits for a lock that one of them holds *)
Definition deadlock (s : state) (ts : list nat) : Prop :=
  ts <> [] /\ forall i, In i ts -> exists l j, wants s i l /\ holder s j l /\ In j ts.

(* the message that thread [i] has taken is done with *)
Definition idle (s : state) (i : nat) : Prop := nth_error (threads s) i = Some Done.
(* a step of a thread that has a message *)
Definition works (s s' : state) : Prop := exists i n, step s (i, Go n) = Some s'.
(* no thread takes a new message *)
Inductive goes_on (s : state) : state -> Prop :=
| on_here : goes_on s s
| on_step s' s'' : goes_on s s' -> works s' s'' -> goes_on s s''.
