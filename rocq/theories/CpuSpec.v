(* Whose time it is: at each moment that of the innermost open section. *)
From Verif Require Import Base Cpu.
Open Scope N_scope.

Definition time (e : event) : N := match e with Enter _ t => t | Leave t => t end.

(* The open sections after an event, innermost first. *)
Definition after (sections : list (option N)) (e : event) : list (option N) :=
  match e with Enter c _ => c :: sections | Leave _ => tl sections end.

(* How long, until the last event, section [c] was the innermost open one. *)
Fixpoint spent (c : N) (sections : list (option N)) (since : N) (evs : list event) : N :=
  match evs with
  | [] => 0
  | e :: evs' =>
      match sections with
      | Some d :: _ => if d =? c then time e - since else 0
      | _ => 0
      end + spent c (after sections e) (time e) evs'
  end.

(* One context's part of what all do. *)
Definition of_ (i : N) (tr : list (N * event)) : list event :=
  map snd (filter (fun x => fst x =? i) tr).

(* A clock that does not go back. *)
Fixpoint onward (since : N) (evs : list event) : Prop :=
  match evs with [] => True | e :: evs' => since <= time e /\ onward (time e) evs' end.

Definition sum (l : list N) : N := fold_right N.add 0 l.

(* The open sections at the end, and the time of the last event. *)
Definition open_ (evs : list event) : list (option N) := fold_left after evs [].
Definition last_time (since : N) (evs : list event) : N := fold_left (fun _ e => time e) evs since.

(* A context in use: some section is open between the first event and the
   last, and every section that is entered has one of these counters. *)
Fixpoint in_use (cs : list N) (sections : list (option N)) (evs : list event) : Prop :=
  match evs with
  | [] => True
  | e :: evs' =>
      match sections with Some d :: _ => In d cs | _ => False end /\
      in_use cs (after sections e) evs'
  end.
