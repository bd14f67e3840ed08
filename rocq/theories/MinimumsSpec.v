(* Vocabulary for statements about minimums. *)
From Verif Require Import Minimums.

(* the limits after a list of updates, of which some may be refused *)
Definition after (us : list limits) : limits := fold_left (fun s u => fst (update_limits s u)) us [].

(* a value meets a limit: it has its size, and is not below it in byte order *)
Definition meets (v limit : bytes) : Prop := length v = length limit /\ ble limit v = true.

(* between any two requests something was committed *)
Definition one_at_a_time (h : list mop) : Prop :=
  forall h1 u1 mid u2 h2, h = h1 ++ MRequest u1 :: mid ++ MRequest u2 :: h2 -> In MCommit mid.
