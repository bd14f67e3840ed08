(* Small vocabulary for memberships and quorums. *)
From Verif Require Import Membership.

(* the members two sets of voters have in common *)
Definition common (a b : pset) : pset := filter (fun p => pmem p b) a.
(* q is a quorum of the voters v under super_majority sm: distinct voters, at
   least as many as the code asks for *)
Definition is_quorum (v : pset) (sm : N) (q : pset) : Prop :=
  NoDup q /\ incl q v /\ quorum_size (psize v) sm <= psize q.

(* strictly increasing *)
Fixpoint ssorted (s : pset) : Prop :=
  match s with [] => True | p :: s' => (forall q, In q s' -> blt p q = true) /\ ssorted s' end.
(* what the C++ types and FromProto guarantee of a membership *)
Definition wf_members (m : members) : Prop :=
  ssorted (m_all m) /\ ssorted (m_voting m) /\ incl (m_voting m) (m_all m).

(* the role of a peer *)
Inductive prole := Outside | Silent | Voter.
Definition role_in (m : members) (p : bytes) : prole :=
  if pmem p (m_voting m) then Voter else if pmem p (m_all m) then Silent else Outside.

(* exactly one peer changes its role, one step (or a voter leaves) *)
Definition one_step (from to : members) : Prop :=
  exists p, (forall q, q <> p -> role_in to q = role_in from q) /\
    match role_in from p, role_in to p with
    | Outside, Silent | Silent, Voter | Voter, Silent | Silent, Outside | Voter, Outside => True
    | _, _ => False
    end.
Definition safe_step (leader : bytes) (sm : N) (from to : members) : Prop :=
  one_step from to /\ m_voting to <> [] /\ role_in to leader = Voter /\ incl (m_voting to) (m_all to) /\
  (sm < psize (m_voting from) -> sm < psize (m_voting to)).
