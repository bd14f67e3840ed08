(* Vocabulary for the changes a leader proposes by itself. *)
From Verif Require Export Heal MembershipSpec RaftSpec.

(* heard of fewer than t ticks ago; not heard of for more than t ticks *)
Definition heard_within (n : node) (t : Z) (p : bytes) : Prop := (last_seen n p < t)%Z /\ (last_seen n p < invalid_ticks)%Z.
Definition silent_for (n : node) (t : Z) (p : bytes) : Prop := (t < last_seen n p)%Z /\ last_seen n p <> invalid_ticks.
Definition voters (m : members) : N := psize (m_voting m).

(* exactly the role of p changes, from one to another *)
Definition changes (from to : members) (p : bytes) (a b : prole) : Prop :=
  role_in from p = a /\ role_in to p = b /\ forall q, q <> p -> role_in to q = role_in from q.

Inductive heals (c : heal_conf) (n : node) (from to : members) : Prop :=
| h_promotes p : p <> n_me n -> changes from to p Silent Voter -> heard_within n (c_eticks (n_cfg n)) p ->
    voters to = voters from + 1 -> voters to <= h_max c -> heals c n from to
| h_demotes p : p <> n_me n -> changes from to p Voter Silent -> silent_for n (h_voting_timeout c) p ->
    voters to + 1 = voters from -> h_min c <= voters to -> heals c n from to
| h_removes p : p <> n_me n -> changes from to p Silent Outside -> silent_for n (h_membership_timeout c) p ->
    voters to = voters from -> heals c n from to.

(* ids have 32 bytes *)
Definition ids_ok (m : members) : Prop := forall p, In p (m_all m) -> blen p = 32.
