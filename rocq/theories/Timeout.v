(* Model of enclave/timeout/timeout.{h,cc}.

   Ticks is int64_t; its overflow is undefined.  timeouts_, a map of maps, is
   kept flat: (tick, cancel id, function).  cancel ids count up and are unbounded
   here.  TimerTick releases its lock before it calls the functions that are due,
   so these calls are steps of their own, in any order, and other calls may come
   between them.  A function is represented by a value of any type F. *)
From Verif Require Export Base.
Open Scope Z_scope.

Definition INT64_MAX : Z := 2 ^ 63 - 1.

Section Timeout.
Context {F : Type}.

(* timeout.h:57-63; [running] are the functions TimerTick has taken out and not
   called yet *)
Record timeouts := Timeouts { t_ticks : Z; t_gen : Z; t_set : list (Z * Z * F); t_running : list (Z * F) }.
Definition no_timeouts : timeouts := Timeouts 0 0 [] [].

Inductive top := TSet (d : Z) (f : F) | TCancel (at_tick id : Z) | TTick | TRun (k : nat).
Inductive tres := RSet (at_tick id : Z) | RRan (id : Z) (f : F) | RNothing.

(* timeout.cc:30-58 SetTimeout *)
Definition set_timeout (d : Z) (f : F) (s : timeouts) : outcome (timeouts * tres) :=
  if INT64_MAX <? d + t_ticks s then Crash else
  let d' := if d + t_ticks s <=? t_ticks s then 1 else d in
  if INT64_MAX <? d' + t_ticks s then Crash else
  let id := t_gen s + 1 in
  Ret (Timeouts (t_ticks s) id (t_set s ++ [(d' + t_ticks s, id, f)]) (t_running s), RSet (d' + t_ticks s) id).

(* timeout.cc:60-70 CancelTimeout *)
Definition is_at (at_tick id : Z) (x : Z * Z * F) : bool := ((fst (fst x) =? at_tick) && (snd (fst x) =? id))%bool.
Definition cancel_timeout (at_tick id : Z) (s : timeouts) : timeouts :=
  Timeouts (t_ticks s) (t_gen s) (filter (fun x => negb (is_at at_tick id x)) (t_set s)) (t_running s).

(* timeout.cc:10-23 TimerTick up to the unlock *)
Definition timer_tick (s : timeouts) : outcome timeouts :=
  if INT64_MAX <=? t_ticks s then Crash else
  let now := t_ticks s + 1 in
  Ret (Timeouts now (t_gen s) (filter (fun x => negb (fst (fst x) =? now)) (t_set s))
         (t_running s ++ map (fun x => (snd (fst x), snd x)) (filter (fun x => fst (fst x) =? now) (t_set s)))).

(* timeout.cc:24-27: one turn of the loop *)
Fixpoint take_nth {A} (k : nat) (l : list A) : option (A * list A) :=
  match l, k with
  | [], _ => None
  | x :: l', O => Some (x, l')
  | x :: l', S k' => match take_nth k' l' with Some (y, r) => Some (y, x :: r) | None => None end
  end.
Definition run_one (k : nat) (s : timeouts) : timeouts * tres :=
  match take_nth k (t_running s) with
  | Some ((id, f), r) => (Timeouts (t_ticks s) (t_gen s) (t_set s) r, RRan id f)
  | None => (s, RNothing)
  end.

Definition tstep (s : timeouts) (o : top) : outcome (timeouts * tres) :=
  match o with
  | TSet d f => set_timeout d f s
  | TCancel a i => Ret (cancel_timeout a i s, RNothing)
  | TTick => match timer_tick s with Ret s' => Ret (s', RNothing) | Crash => Crash end
  | TRun k => Ret (run_one k s)
  end.
End Timeout.
Arguments timeouts : clear implicits.
Arguments top : clear implicits.
Arguments tres : clear implicits.
