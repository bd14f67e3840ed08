(* What the host's sums are to be: the enclave's counts. *)
From Verif Require Import Base Metrics.
From Coq Require Import String.
Open Scope N_scope.

(* One poll: what the enclave's variables held as it was answered, and whether
   the answer came. *)
Definition poll := ((key -> N) * bool)%type.
Definition snapshot (names : list string) (p : poll) : option (list u64pb) :=
  if snd p then Some (all_as_pb names (fst p)) else None.

(* Counters only rise, and stay below 2^63. *)
Fixpoint rising (from : key -> N) (ps : list poll) : Prop :=
  match ps with
  | [] => True
  | p :: ps' => (forall k, from k <= fst p k /\ fst p k < 2 ^ 63) /\ rising (fst p) ps'
  end.

(* What the enclave had counted at the last poll that was answered. *)
Definition counted (ps : list poll) (k : key) : N :=
  fold_left (fun a (p : poll) => if snd p then fst p k else a) ps 0.

(* The counters there are: the table's, and one for each error. *)
Definition is_counter (names : list string) (k : key) : Prop :=
  In k table \/ exists n, In n names /\ k = err_key n.
