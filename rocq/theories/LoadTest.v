(* The load test of the operators: host/cmd/svr3client/main.go:115-175 (the set
   of hosts) and 185-305 (runLoadTest).
   Simplified: a dial works; what a run does is its latency; sums are not cut
   off at 64 bits. *)
From Verif Require Import Base.
Open Scope Z_scope.

(* --- main.go:186, 198-248: workers take numbers from one counter --- *)
Definition int32 (x : Z) : Z := (x + 2 ^ 31) mod 2 ^ 32 - 2 ^ 31.
Record pool := Pool { counter : Z; gone : list nat; taken : list (nat * Z) }.
Definition start (count : Z) : pool := {| counter := int32 count; gone := []; taken := [] |}.
(* main.go:204-206: one worker's atomic step; it returns when it gets a negative number. *)
Definition take (w : nat) (p : pool) : pool :=
  if existsb (Nat.eqb w) (gone p) then p else
  let u := int32 (counter p - 1) in
  if u <? 0 then {| counter := u; gone := w :: gone p; taken := taken p |}
  else {| counter := u; gone := gone p; taken := taken p ++ [(w, u)] |}.
Definition schedule (ws : list nat) (p : pool) : pool := fold_left (fun p w => take w p) ws p.

(* --- main.go:115-148: hosts and what is outstanding on each --- *)
Definition hosts := list (bytes * N).
(* main.go:128-143 getHost: the order of a Go map is arbitrary, here the order of
   the list that is given; the first of the least ones is taken. *)
Fixpoint least (l : hosts) (min : N) (out : bytes) : N * bytes :=
  match l with
  | [] => (min, out)
  | (h, c) :: r => if N.ltb c min then least r c h else least r min out
  end.
Definition set_host (l : hosts) (h : bytes) (f : N -> N) : hosts :=
  map (fun e => if list_eq_dec N.eq_dec (fst e) h then (fst e, f (snd e)) else e) l.
Definition get_host (l : hosts) : hosts * bytes :=
  let '(_, h) := least l (2 ^ 64 - 1)%N [] in (set_host l h N.succ, h).
(* main.go:144-148 *)
Definition return_host (l : hosts) (h : bytes) : hosts := set_host l h N.pred.
(* main.go:150-175 newWebsocket: the host is returned when the dial is over, not
   when the connection is. *)
Definition new_websocket (l : hosts) : hosts * bytes :=
  let '(l', h) := get_host l in (return_host l' h, h).
(* n connections, one dialled after the other, none of them closed: their hosts. *)
Fixpoint connections (n : nat) (l : hosts) : list bytes :=
  match n with O => [] | S k => let '(l', h) := new_websocket l in h :: connections k l' end.

(* --- main.go:255-278: what is made of the latencies --- *)
Definition maxint64 : Z := 2 ^ 63 - 1.
Record stats := Stats { cmin : Z; cmax : Z; csum : Z; rmin : Z; rmax : Z; rsum : Z }.
Definition no_stats : stats := Stats maxint64 0 0 maxint64 0 0.
Definition add_stat (s : stats) (x : Z * Z) : stats :=
  let '(c, r) := x in
  let cm1 := if (c <? cmin s) && (0 <? c) then c else cmin s in
  let cm2 := if (r <? cm1) && (0 <? r) then r else cm1 in
  {| cmin := cm2; cmax := if cmax s <? c then c else cmax s; csum := csum s + c;
     rmin := rmin s; rmax := if rmax s <? r then r else rmax s; rsum := rsum s + r |}.
Definition statistics (xs : list (Z * Z)) : stats := fold_left add_stat xs no_stats.
