(* Model of enclave/groupclock/groupclock.{h,cc}, and of the choice of its
   participants in core.cc.  UnixSecs (time_t) is Z. *)
From Verif Require Export SMap Membership.

(* groupclock.h:35-38 *)
Record clock := Clock { k_local : Z; k_remotes : smap Z }.
Definition new_clock : clock := Clock 0 [].                                    (* groupclock.h:28 *)

(* groupclock.cc:12-19 SetLocalTime, SetRemoteTime *)
Inductive cop := CLocal (t : Z) | CRemote (p : bytes) (t : Z).
Definition cstep (c : clock) (o : cop) : clock :=
  match o with
  | CLocal t => Clock t (k_remotes c)
  | CRemote p t => Clock (k_local c) (put p t (k_remotes c))
  end.
Definition crun (h : list cop) : clock := fold_left cstep h new_clock.

(* groupclock.cc:24-39: walk the set of remotes and the map of their times side
   by side *)
Fixpoint times_of (s : pset) : smap Z -> list Z :=
  fix go (m : smap Z) : list Z :=
    match s, m with
    | p :: s', (q, t) :: m' =>
        match bcmp p q with
        | Lt => times_of s' m
        | Gt => go m'
        | Eq => t :: times_of s' m'
        end
    | _, _ => []
    end.
(* std::sort *)
Fixpoint insert_asc (x : Z) (l : list Z) : list Z :=
  match l with [] => [x] | y :: l' => if (x <=? y)%Z then x :: l else y :: insert_asc x l' end.
Definition sort_asc (l : list Z) : list Z := fold_right insert_asc [] l.

(* groupclock.cc:21-46 GetTime: the time, and remotes_used *)
Definition get_time (remotes : pset) (c : clock) : Z * N :=
  let secs := k_local c :: times_of remotes (k_remotes c) in
  (nth (length secs / 2)%nat (sort_asc secs) 0%Z, N.of_nat (length secs) - 1).

(* core.cc:968-1006 GroupTimeParticipants: connected voting peers
   (std::set_intersection), and how many remote times make up all voters.  [mem]
   is the membership of the raft state, if it has one; [me_voting] whether this
   replica is one of its voters (only asked once loaded). *)
Fixpoint set_inter (a : pset) : pset -> pset :=
  fix go (b : pset) : pset :=
    match a, b with
    | x :: a', y :: b' =>
        match bcmp x y with
        | Lt => set_inter a' b
        | Gt => go b'
        | Eq => x :: set_inter a' b'
        end
    | _, _ => []
    end.
Definition SIZE_MAX : N := 2 ^ 64 - 1.
Definition time_participants (connected : pset) (voters : option (pset * bool)) : pset * N :=
  match voters with
  | Some (v, me_voting) => (set_inter connected v, if me_voting then psize v - 1 else psize v)
  | None => ([], SIZE_MAX)
  end.
(* core.cc:947-966 MaybeUpdateGroupTimeLocked, one pass of the loop: the group
   time and peers_attested_with_raft_quorum_timestamp_ *)
Definition group_time (connected : pset) (voters : option (pset * bool)) (c : clock) : Z * bool :=
  let (peers, required) := time_participants connected voters in
  let (t, used) := get_time peers c in
  (t, required <=? used).
