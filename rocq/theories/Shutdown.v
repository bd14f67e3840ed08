(* Model of how a replica leaves its group when its host is told to terminate:
   the host's loop (host/service/service.go), and what the enclaves do with the two
   requests it makes (enclave/core/core.cc: HandleRelinquishLeadership,
   HandleHostRequestedRaftRemoval, HandlePeerRequestedRaftRemoval) over the model of a
   raft replica in Raft.v.  Not modelled: the pauses between attempts, the exit of the
   process after the loop, and the answers that come later (the callbacks given to
   AddLogTransaction, see CoreTx.v, and to SendE2ETransaction, see E2E.v). *)
From Verif Require Export Raft CoreTx.

(* shared/proto/error.proto *)
Definition E_LeaderRemovingSelf := 227.
Definition E_RemoveNonexistent := 228.

(* dispatcher.go:102-118 SendTransaction: an error of the host, or an answer of the
   enclave with a status (0 is OK), which is not looked at here *)
Inductive tx := TxErr | TxAnswer (status : N).
Definition failed (t : tx) : bool := match t with TxErr => true | TxAnswer _ => false end.
(* service.go:149-168: each attempt makes both requests, then the loop ends if neither
   has an error.  The results are given; the number of the attempt after which it ends. *)
Fixpoint sigterm (l : list (tx * tx)) : option nat :=
  match l with
  | [] => None
  | (t1, t2) :: l' => if (negb (failed t1) && negb (failed t2))%bool then Some 0%nat else option_map S (sigterm l')
  end.

(* what comes of a request: an answer at once, or an answer when an entry is applied
   at a location, or when another replica has answered *)
Inductive next := Now (status : N) | WhenApplied (l : loc) | AskLeader (p : bytes).

Section Shutdown.
Variable sz : sizes.
Variable hmac : bytes -> bytes -> bytes.

(* core.cc:818-840 HandleRelinquishLeadership; part: RAFTSTATE_LOADED_PART_OF_GROUP.
   The location has no hash. *)
Definition relinquish_request (part ok : bool) (rnd : Z) (n : node) : outcome (node * next) :=
  if (negb part || negb (is_leader n))%bool then Ret (n, Now 0) else
  let* '(n', _) := rstep sz hmac n (ORelinquish ok rnd) in
  Ret (n', WhenApplied (Loc (last_term (n_log n') + 1) (next_idx (n_log n')) [])).

(* core.cc:842-860 HandleHostRequestedRaftRemoval; raft.cc:95-102 leader() *)
Definition host_removal (part : bool) (n : node) : next :=
  if negb part then Now E_RaftState else
  match n_role n with
  | Leader _ _ _ => Now E_LeaderRemovingSelf
  | Follower (Some p) _ => AskLeader p
  | _ => Now E_LeaderUnknown
  end.

(* core.cc:1532-1573 HandlePeerRequestedRaftRemoval *)
Definition without (from : bytes) (g : rgroup) : rgroup := filter (fun r => negb (beq (rp_id r) from)) g.
Definition peer_removal (part : bool) (from : bytes) (ok : bool) (rnd : Z) (n : node) : outcome (node * next) :=
  if negb part then Ret (n, Now E_RaftState) else
  let g := as_proto (mship n) in
  if negb (existsb (fun r => beq (rp_id r) from) g) then Ret (n, Now E_RemoveNonexistent) else
  let* '(n', a) := rstep sz hmac n (ORequest ok rnd (IMember (without from g))) in
  match a_loc a with
  | Some (l, RE_OK) => Ret (n', WhenApplied l)
  | Some (_, er) => Ret (n', Now (rerr_code er))
  | None => Crash
  end.
End Shutdown.
