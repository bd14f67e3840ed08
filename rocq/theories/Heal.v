(* Model of Core::NextReplicaGroup (enclave/core/core.cc:1023-1087): the change of
   membership a leader proposes by itself on a tick of the timer. *)
From Verif Require Export Raft.

(* enclaveconfig.proto:35-36 and 66-67; election_ticks is in the node's configuration *)
Record heal_conf := HealConf { h_min : N; h_max : N; h_voting_timeout : Z; h_membership_timeout : Z }.

(* raft.cc:1431-1436 last_seen_ticks *)
Definition last_seen (n : node) (p : bytes) : Z :=
  match n_role n with
  | Leader fs _ _ => match lookup p fs with Some f => f_seen f | None => invalid_ticks end
  | _ => invalid_ticks
  end.
(* raft.cc:95-101 leader() *)
Definition knows_leader (n : node) : bool :=
  match n_role n with Leader _ _ _ => true | Follower (Some _) _ => true | _ => false end.

(* core.cc:1036-1042, over the members in order *)
Fixpoint freshest (n : node) (voters : pset) (ps : pset) (best : option bytes) (min : Z) : option bytes * Z :=
  match ps with
  | [] => (best, min)
  | p :: ps' =>
      if ((last_seen n p <? min)%Z && negb (pmem p voters))%bool then freshest n voters ps' (Some p) (last_seen n p)
      else freshest n voters ps' best min
  end.
(* core.cc:1046-1051 and 1061-1066: the first replica with that id *)
Fixpoint set_voting (p : bytes) (v : bool) (g : rgroup) : option rgroup :=
  match g with
  | [] => None
  | r :: g' => if beq (rp_id r) p then Some (Replica (rp_id r) v :: g') else option_map (cons r) (set_voting p v g')
  end.
(* core.cc:1076-1082 *)
Fixpoint drop_replica (p : bytes) (g : rgroup) : option rgroup :=
  match g with
  | [] => None
  | r :: g' => if beq (rp_id r) p then Some g' else option_map (cons r) (drop_replica p g')
  end.
(* the loops of core.cc:1056-1069 and 1072-1084 go on when the id is not found *)
Fixpoint first_some {X Y} (f : X -> option Y) (l : list X) : option Y :=
  match l with [] => None | x :: l' => match f x with Some y => Some y | None => first_some f l' end end.
Definition gone (n : node) (limit : Z) (p : bytes) : bool :=
  negb (last_seen n p =? invalid_ticks)%Z && (limit <? last_seen n p)%Z.

(* core.cc:1032-1053 *)
Definition promote_one (c : heal_conf) (n : node) : option rgroup :=
  let m := mship n in
  if ((psize (m_voting m) <? h_max c) && (psize (m_voting m) <? psize (m_all m)))%bool then
    match freshest n (m_voting m) (m_all m) None invalid_ticks with
    | (Some p, min) => if (min <? c_eticks (n_cfg n))%Z then set_voting p true (as_proto m) else None
    | (None, _) => None
    end
  else None.
(* core.cc:1055-1070 *)
Definition demote_one (c : heal_conf) (n : node) : option rgroup :=
  let m := mship n in
  if h_min c <? psize (m_voting m) then
    first_some (fun p => if gone n (h_voting_timeout c) p then set_voting p false (as_proto m) else None) (m_voting m)
  else None.
(* core.cc:1071-1085 *)
Definition remove_one (c : heal_conf) (n : node) : option rgroup :=
  let m := mship n in
  if psize (m_voting m) <? psize (m_all m) then
    first_some (fun p => if pmem p (m_voting m) then None
                         else if gone n (h_membership_timeout c) p then drop_replica p (as_proto m) else None) (m_all m)
  else None.
(* core.cc:1023-1087 NextReplicaGroup, in a replica that is part of the group *)
Definition next_group (c : heal_conf) (n : node) : option rgroup :=
  if negb (knows_leader n) then None
  else match promote_one c n with
       | Some g => Some g
       | None => match demote_one c n with Some g => Some g | None => remove_one c n end
       end.
