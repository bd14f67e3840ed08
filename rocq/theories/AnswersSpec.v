(* Answers to the host. *)
From Verif Require Export Answers.

(* how often the host has been answered with that number *)
Definition answers (tx : N) (w : world) : nat := count_occ N.eq_dec (said w) tx.

(* the number that a callback will answer *)
Definition log_number (l : on_log) : option N :=
  match l with LClient tx | LReply tx | LMember tx _ => Some tx | LPeer => None end.
Definition peer_number (c : on_peer) : option N :=
  match c with
  | PReply tx | PGetRaft tx _ | PLoad tx | PMember tx _ => Some tx
  | PWrite l => log_number l
  | POther => None
  end.
(* the callbacks that wait *)
Definition pending (w : world) : list (option N) :=
  map (fun x => peer_number (snd (snd x))) (calls w) ++ map (fun x => log_number (snd x)) (waits w).
Definition waiting (tx : N) (w : world) : nat :=
  length (filter (fun x => match x with Some y => y =? tx | None => false end) (pending w)).

(* the requests of the host *)
Definition asked (es : list (event * list nat)) : list (N * kind) :=
  flat_map (fun e => match fst e with ERequest tx q => [(tx, q)] | _ => [] end) es.
(* the host numbers its requests *)
Definition numbered (es : list (event * list nat)) : Prop := NoDup (map fst (asked es)).
Definition is_join (q : kind) : bool := match q with QJoin _ => true | _ => false end.
Definition no_request (q : kind) : bool := match q with QUnset => true | _ => false end.
