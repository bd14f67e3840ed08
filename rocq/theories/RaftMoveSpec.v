(* Vocabulary for statements about groups whose membership changes. *)
From Verif Require Import RaftLog Raft RaftSpec RaftNet Membership MembershipSpec.

(* any two quorums of two memberships in F have more than sm replicas in common *)
Definition overlapping (sm : N) (F : members -> Prop) : Prop :=
  forall a b q1 q2, F a -> F b -> is_quorum (m_voting a) sm q1 -> is_quorum (m_voting b) sm q2 -> sm < psize (common q1 q2).

(* every change of the membership that anybody asks for is one to a membership in F *)
Definition asked_within (F : members -> Prop) (evs : list event) : Prop :=
  forall k ok rnd g m, In (ECall k (ORequest ok rnd (IMember g))) evs -> from_proto g = (m, M_OK) -> F m.

(* the voters of m are those in v, or those and p as well *)
Definition voters_or_one_more (v : pset) (p : bytes) (m : members) : Prop :=
  (forall k, In k (m_voting m) <-> In k v) \/ (forall k, In k (m_voting m) <-> k = p \/ In k v).

(* from membership M on: there is a set of memberships, any two quorums of any two of
   which have more than sm replicas in common, and nobody asks for one outside it *)
Definition changes_overlap (M : members) (sm : N) (evs : list event) : Prop :=
  exists F : members -> Prop, F M /\ asked_within F evs /\ overlapping sm F.
