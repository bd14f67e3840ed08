(* Vocabulary for statements about the membership that a replica acts by. *)
From Verif Require Import RaftLog Raft RaftSpec RaftNet RaftNetSpec Membership MembershipSpec.

(* the membership that entry e sets *)
Definition sets_members (e : entry) : option members :=
  match e_inner e with
  | IMember g => match from_proto g with (m, M_OK) => Some m | _ => None end
  | _ => None
  end.
(* the membership after the entries es, from M on: that of the last entry which sets one *)
Definition members_after (M : members) (es : list entry) : members :=
  fold_left (fun m e => match sets_members e with Some m' => m' | None => m end) es M.

(* s is a state of a group that began with membership M over the committed log L0 *)
Definition net_reached_from sz hmac (M : members) (sm : N) (L0 : list entry) (evs : list event) (s : net) : Prop :=
  exists group xs s0, may_start hmac M sm L0 xs /\ start sz hmac group M sm L0 xs = Ret s0 /\ s = net_run sz hmac s0 evs.
(* the entries of the log A after those of L0 *)
Definition beyond (L0 A : list entry) : list entry := skipn (length L0) A.
