(* Vocabulary for statements about a group of replicas. *)
From Verif Require Import RaftLog Raft RaftSpec RaftNet MembershipSpec.

(* The group may start like this: voters more than super_majority, each of them
   running, one replica per name, a hash-chained log. *)
Definition may_start hmac (M : members) (sm : N) (L0 : list entry) (xs : list seat) : Prop :=
  wf_members M /\ sm < psize (m_voting M) /\ psize (m_voting M) < 2 ^ 63 /\ chained hmac L0 /\
  NoDup (map s_id xs) /\ incl (m_voting M) (map s_id xs) /\
  Forall (fun x => s_drop x = 0%nat \/ (s_drop x < length L0)%nat) xs.

(* nobody asks for a change of the membership *)
Definition fixed_membership (evs : list event) : Prop :=
  forall k ok rnd g, ~ In (ECall k (ORequest ok rnd (IMember g))) evs.

(* the state n with full log A was a state of replica k *)
Definition was (s : net) (k : bytes) (n : node) (A : list entry) : Prop := In (k, (n, A)) (w_past s).
(* no two logs that ever existed show a hash collision *)
Definition no_clash (s : net) : Prop :=
  forall k1 n1 A1 k2 n2 A2, was s k1 n1 A1 -> was s k2 n2 A2 -> ~ clash A1 A2.

(* s is a state of the group after some events *)
Definition net_reached sz hmac (M : members) (sm : N) (evs : list event) (s : net) : Prop :=
  exists group L0 xs s0, may_start hmac M sm L0 xs /\ start sz hmac group M sm L0 xs = Ret s0 /\ s = net_run sz hmac s0 evs.
