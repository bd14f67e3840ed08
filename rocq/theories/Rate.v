(* The limit on how often a user may ask: host/rate/rate.go, config/rate.go,
   web/middleware/rate.go.  The limiter is the library redis_rate v10; the
   script it runs in Redis is not in /repo and is modelled here as published,
   with exact arithmetic in place of floating point.  Times are nanoseconds by
   the clock of Redis; what the script computes in seconds is kept times [rate],
   so that all numbers are whole. *)
From Verif Require Import Base.
Open Scope Z_scope.

(* rate.go:35-49 and config/rate.go:11-20: BucketSize, LeakRateScalar, LeakRateDuration. *)
Record limit := Limit { burst : Z; rate : Z; period : Z }.

(* What Redis holds: for a key the time (times [rate]) at which its bucket will
   be empty. *)
Definition store := bytes -> option Z.
Definition set (st : store) (k : bytes) (v : option Z) : store :=
  fun j => if list_eq_dec N.eq_dec j k then v else st j.

(* rate.go:75-77 redisKey and 36: "<name>::leaky_bucket::<user>" *)
Definition middle : bytes := [58; 58; 108; 101; 97; 107; 121; 95; 98; 117; 99; 107; 101; 116; 58; 58]%N.
Definition redis_key (name user : bytes) : bytes := (name ++ middle) ++ user.

(* redis_rate's script allowN with a cost of 1: Some r says how long to wait
   (times [rate]), None that the request is allowed. *)
Definition allow (l : limit) (st : store) (key : bytes) (now : Z) : store * option Z :=
  let n := now * rate l in
  let tat := Z.max (match st key with Some x => x | None => n end) n in
  let new_tat := tat + period l in
  let allow_at := new_tat - burst l * period l in
  let diff := n - allow_at in
  if diff <? 0 then (st, Some (- diff))
  else (if 0 <? new_tat - n then set st key (Some new_tat) else st, None).

(* rate.go:57-66 Limit as seen by middleware/rate.go:34-62: the request goes on,
   it is answered with 429 and a time to wait; if the limiter fails it goes on. *)
Inductive answer := GoesOn | TooMany (retry : Z).
(* middleware/rate.go:48-50: the seconds in the header are cut off, not rounded. *)
Definition second : Z := 1000000000.
Definition header (l : limit) (retry : Z) : Z := retry / (rate l * second).

(* What happens to the limiter, in order: a user asks; a user asks and Redis
   does not answer; Redis drops a key whose time is over (the script sets its
   expiry to at least that time). *)
Inductive event := Asks (user : bytes) (now : Z) | Fails (user : bytes) (now : Z) | Expires (key : bytes) (now : Z).
Definition step (l : limit) (name : bytes) (st : store) (e : event) : store * list (bytes * Z * answer) :=
  match e with
  | Asks u t =>
      match allow l st (redis_key name u) t with
      | (st', None) => (st', [(u, t, GoesOn)])
      | (st', Some r) => (st', [(u, t, TooMany r)])
      end
  | Fails u t => (st, [(u, t, GoesOn)])
  | Expires k t =>
      match st k with
      | Some x => if x <=? t * rate l then (set st k None, []) else (st, [])
      | None => (st, [])
      end
  end.
Fixpoint run (l : limit) (name : bytes) (st : store) (es : list event) : store * list (bytes * Z * answer) :=
  match es with
  | [] => (st, [])
  | e :: r => let '(st1, o) := step l name st e in
              let '(st2, os) := run l name st1 r in (st2, o ++ os)
  end.
Definition empty : store := fun _ => None.
