(* Vocabulary for what a user can see of a replica's configuration and its phases. *)
From Verif Require Export Life HistSpec.

(* the limits a group configuration has to satisfy *)
Record limits (c : gconf) : Prop := {
  lim_min : 1 <= gc_min c;
  lim_max : gc_min c <= gc_max c;
  lim_att : 1 <= gc_att c;
  lim_db : 2 <= gc_db c <= 5 }.
(* two configurations differing at most in the group id *)
Record agree (a b : gconf) : Prop := {
  ag_min : gc_min a = gc_min b;
  ag_max : gc_max a = gc_max b;
  ag_super : gc_super a = gc_super b;
  ag_db : gc_db a = gc_db b;
  ag_att : gc_att a = gc_att b;
  ag_sim : gc_sim a = gc_sim b }.
(* the limits on the times and sizes a replica runs with *)
Record timing (c : econf) : Prop := {
  ti_heartbeat : ec_heartbeat c < ec_election c;
  ti_voting : ec_election c < ec_voting c;
  ti_membership : ec_voting c < ec_membership c;
  ti_chunk : 1024 <= ec_chunk c;
  ti_log : 1024 <= ec_log c;
  ti_pipeline : 0 < ec_pipeline c < 2 ^ 32 - 1;
  ti_txn : 1 <= ec_txn c }.
(* the group a replica loads, asks to be in, or is in *)
Definition group_of (s : core) : option gconf :=
  match co_phase s with Loading l => Some (ld_conf l) | Requesting c | PartOf c => Some c | _ => None end.
Definition in_group (s : core) (c : gconf) : Prop := co_phase s = PartOf c.
Definition started_nothing (s : core) : Prop := co_phase s = NoState.
Definition is_create_event (e : event) : bool := match e with ECreated _ => true | _ => false end.
Definition is_join (o : lop) : bool := match o with LJoin _ (Some _) _ => true | _ => false end.
(* a request to join that the replica follows *)
Definition join_followed (s : core) (o : lop) : Prop := is_join o = true /\ forall c, ~ in_group s c.
(* a number that was asked for, or the default if it was left out *)
Definition or_default (asked d c : N) : Prop := (asked = 0 -> c = d) /\ (asked <> 0 -> c = asked).
(* times and sizes c are what was asked for in r, and the defaults for the rest *)
Record as_asked (r c : econf) : Prop := {
  as_election : or_default (ec_election r) 32 (ec_election c);
  as_heartbeat : or_default (ec_heartbeat r) 15 (ec_heartbeat c);
  as_chunk : or_default (ec_chunk r) (2 ^ 20) (ec_chunk c);
  as_voting : or_default (ec_voting r) 60 (ec_voting c);
  as_membership : or_default (ec_membership r) 300 (ec_membership c);
  as_log : or_default (ec_log r) (2 ^ 30) (ec_log c);
  as_pipeline : or_default (ec_pipeline r) 4 (ec_pipeline c);
  as_txn : or_default (ec_txn r) 60 (ec_txn c) }.
