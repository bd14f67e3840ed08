(* What a host says of its health: host/health/health.go, and
   host/service/service.go:47-52, 117-118, 137-147, 185-229.
   Time is an integer.  Simplified: no time passes between a tick or an answer
   and what the host does on it; the context of the service is not cancelled. *)
From Verif Require Import Base.
Open Scope Z_scope.

(* health.go: Health; true for no error.  The answer to a GET is 200 or 500. *)
Definition http (healthy : bool) : N := if healthy then 200%N else 500%N.

(* --- /health/live --- *)
Record setup := Setup {
  t0 : Z;                  (* when the checks are started *)
  period : Z; timeout : Z; (* config.go:49-50 *)
  (* What becomes of a status request sent at a time: when it is answered (after
     how long) and whether with a status rather than an error; None: never. *)
  answered : Z -> option (Z * bool);
  (* If answer and timeout come at once, select takes either. *)
  tie : Z -> bool
}.

(* service.go:203-229 livenessCheck, begun at s: when it ends, and whether well. *)
Definition liveness_check (c : setup) (s : Z) : Z * bool :=
  match answered c s with
  | Some (d, ok) =>
      if (d <? timeout c) || ((d =? timeout c) && tie c s) then (s + d, ok) else (s + timeout c, false)
  | None => (s + timeout c, false)
  end.

(* service.go:186: the first tick after r.  A tick that nobody waits for is kept,
   but only one (time.NewTicker). *)
Definition next_tick (c : setup) (r : Z) : Z := t0 c + period c * ((r - t0 c) / period c + 1).
(* service.go:185-201: when the k-th check begins; the first one at once. *)
Fixpoint begins (c : setup) (k : nat) : Z :=
  match k with
  | O => t0 c
  | S j => Z.max (fst (liveness_check c (begins c j))) (next_tick c (begins c j))
  end.
Definition ends (c : setup) (k : nat) : Z := fst (liveness_check c (begins c k)).
Definition ended_well (c : setup) (k : nat) : bool := snd (liveness_check c (begins c k)).
(* service.go:50, 190, 198: what /health/live answers at time x. *)
Definition live (c : setup) (x : Z) (b : bool) : Prop :=
  (x < ends c 0 /\ b = false) \/ exists k, ends c k <= x < ends c (S k) /\ b = ended_well c k.

(* --- /health/ready --- *)
(* What happens to a host: it has created or joined a group (service.go:121-126),
   it is told to terminate, its answer on its life changes. *)
Inductive event := Joined | Sigterm | LiveIs (b : bool).
(* Running: is /health/ready good, and does it catch the signal; or gone. *)
Inductive host := Up (ready : bool) (catches : bool) | Gone.
Definition hstep (h : host) (e : event) : host :=
  match h, e with
  | Gone, _ => Gone
  | Up r c, Joined => Up true true                       (* service.go:137-141 *)
  | Up r c, Sigterm => if c then Up false c else Gone    (* service.go:144-147 *)
  | Up r c, LiveIs _ => Up r c
  end.
(* service.go:49-50 *)
Definition started : host := Up false false.
Definition after (es : list event) : host := fold_left hstep es started.
Definition ready (es : list event) : option N := match after es with Up r _ => Some (http r) | Gone => None end.
