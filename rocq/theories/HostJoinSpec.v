(* Vocabulary for statements about hosts that find or create a group. *)
From Verif Require Import HostJoin.

(* reached from an empty Redis by any events *)
Definition jreached (w : jworld) : Prop := exists evs, w = jrun jstart evs.
(* how often hosts asked their enclaves to create a group *)
Definition creations (acts : list (bytes * jact)) : nat :=
  length (filter (fun x => match snd x with ACreate _ => true | _ => false end) acts).
(* h is in the group that c has created: it is c, or its enclave joined through a host
   that is in the group *)
Inductive in_group (acts : list (bytes * jact)) (c : bytes) : bytes -> Prop :=
| in_creator : In (c, ACreate true) acts -> in_group acts c c
| in_joined h p : In (h, AJoin p true) acts -> in_group acts c p -> in_group acts c h.
(* h's enclave has created or joined a group *)
Definition has_group (w : jworld) (h : bytes) : Prop :=
  In (h, ACreate true) (j_acts w) \/ exists p, In (h, AJoin p true) (j_acts w).
Definition is_member (w : jworld) (h : bytes) : Prop :=
  exists x, lookup h (j_hosts w) = Some x /\ h_phase x = JMember.
(* redis shows h as a member that others may join through *)
Definition announced (w : jworld) (h : bytes) : Prop :=
  exists e, lookup h (j_peers w) = Some e /\ pe_member e = true.
(* hosts p and h differ, and so do their addresses *)
Definition other_host (w : jworld) (h p : bytes) : Prop :=
  p <> h /\ exists xh xp, lookup h (j_hosts w) = Some xh /\ lookup p (j_hosts w) = Some xp /\ h_addr xp <> h_addr xh.
(* by the end of these acts p's enclave had created or joined a group *)
Definition had_group (acts : list (bytes * jact)) (p : bytes) : Prop :=
  In (p, ACreate true) acts \/ exists q, In (p, AJoin q true) acts.
(* the lock is taken, no entry in Redis or in a list shows a member, and no host is
   creating, joining or a member *)
Definition stuck (w : jworld) : Prop :=
  j_lock w <> None /\ (forall k e, In (k, e) (j_peers w) -> pe_member e = false) /\
  forall h x, lookup h (j_hosts w) = Some x ->
    match h_phase x with
    | JCreate | JJoin _ | JAttest | JMember => False
    | JList found => forall k e, In (k, e) found -> pe_member e = false
    | _ => True
    end.
(* h reads all entries that Redis holds *)
Definition list_all (h : bytes) (w : jworld) : list jevent := map (JFind h) (map fst (j_peers w)).
