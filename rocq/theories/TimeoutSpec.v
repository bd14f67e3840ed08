(* Vocabulary for statements about timeouts. *)
From Verif Require Import Timeout HistSpec.
Open Scope Z_scope.

(* the number of timer ticks in a history *)
Definition ticks_in {F} (h : list (top F)) : Z :=
  Z.of_N (count (fun o => match o with TTick => true | _ => false end) h).
(* the tick, counted from when it was set, at which a timeout for d is due *)
Definition due (d : Z) : Z := Z.max 1 d.
(* the calls of the function set under an id, among the results of a history *)
Definition runs {F} (id : Z) (rs : list (tres F)) : list F :=
  flat_map (fun r => match r with RRan i f => if i =? id then [f] else [] | _ => [] end) rs.
