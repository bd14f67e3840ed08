(* Model of enclave/raft/membership.{h,cc} and Raft::quorum_size. *)
From Verif Require Export RaftLog.

(* std::set<PeerID>: strictly increasing list *)
Definition pset := list bytes.
Definition pmem (p : bytes) (s : pset) : bool := existsb (beq p) s.
Fixpoint pins (p : bytes) (s : pset) : pset :=
  match s with
  | [] => [p]
  | q :: s' => match bcmp p q with Lt => p :: q :: s' | Eq => s | Gt => q :: pins p s' end
  end.
Definition psize (s : pset) : N := N.of_nat (length s).

Record members := Members { m_all : pset; m_voting : pset }.

Inductive merr := M_OK | M_InvalidID | M_Duplicate | M_SuperMajorityLost | M_EmptySet | M_TooMany | M_None
  | M_LeaderNotVoting | M_LeaderNotMember | M_VotingNotSubset.

(* membership.cc:11-27 FromProto, with peerid.cc FromString's length check *)
Fixpoint from_proto_aux (g : rgroup) (out : members) : members * merr :=
  match g with
  | [] => (out, M_OK)
  | r :: g' =>
      if negb (blen (rp_id r) =? 32) then (out, M_InvalidID)
      else if pmem (rp_id r) (m_all out) then (out, M_Duplicate)
      else from_proto_aux g' (Members (pins (rp_id r) (m_all out))
             (if rp_voting r then pins (rp_id r) (m_voting out) else m_voting out))
  end.
Definition from_proto (g : rgroup) : members * merr := from_proto_aux g (Members [] []).

(* membership.cc:29-34 First *)
Definition first_members (me : bytes) : members := Members [me] [me].

(* membership.cc:37-56 SetDiffSize, and std::set_difference: what of a is not in
   b, walking both sorted sets *)
Fixpoint set_diff (a : pset) : pset -> pset :=
  fix go (b : pset) : pset :=
    match a, b with
    | [], _ => []
    | _, [] => a
    | x :: a', y :: b' =>
        match bcmp x y with
        | Lt => x :: set_diff a' b
        | Gt => go b'
        | Eq => set_diff a' b'
        end
    end.
Definition set_diff_size (a b : pset) : N := psize (set_diff a b).

(* membership.cc:58-104 ValidProgressionForLeader.  The subtraction on line 100
   is size_t's: a membership read by FromProto has its voters among its members. *)
Definition valid_progression (leader : bytes) (from to : members) (sm : N) : merr :=
  if ((sm <? psize (m_voting from)) && (psize (m_voting to) <=? sm))%bool then M_SuperMajorityLost else
  let vadd := set_diff_size (m_voting to) (m_voting from) in
  let vrem := set_diff (m_voting from) (m_voting to) in
  let aadd := set_diff_size (m_all to) (m_all from) in
  let arem := set_diff (m_all from) (m_all to) in
  let changes := vadd + psize vrem + aadd + psize arem in
  if ((psize (m_voting to) =? 0) || (psize (m_all to) =? 0))%bool then M_EmptySet else
  if (negb ((changes =? 2) && (psize vrem =? 1) && (psize arem =? 1)
            && match vrem, arem with v :: _, a :: _ => beq v a | _, _ => false end)
      && (1 <? changes))%bool then M_TooMany else
  if changes =? 0 then M_None else
  if negb (pmem leader (m_voting to)) then M_LeaderNotVoting else
  if negb (pmem leader (m_all to)) then M_LeaderNotMember else
  if negb (set_diff_size (m_all to) (m_voting to)
           =? (psize (m_all to) + 2 ^ 64 - psize (m_voting to)) mod 2 ^ 64) then M_VotingNotSubset else
  M_OK.

(* membership.cc:106-116 AsProto *)
Definition as_proto (m : members) : rgroup := map (fun p => Replica p (pmem p (m_voting m))) (m_all m).

(* raft.cc:59-63 quorum_size, in size_t arithmetic *)
Definition quorum_size (n sm : N) : N :=
  N.min n ((((n + 2 ^ 64 - sm) mod 2 ^ 64) / 2 + 1 + sm) mod 2 ^ 64).
