(* Model of the life of a replica in enclave/core/core.cc: its configuration, creating
   or joining a group, loading, asking for membership, being added and removed.

   Outside: whether random bytes can be had, whether a peer id parses, whether a peer
   is connected, whether enough voters are connected, whether minimums, connections
   and the refreshed attestation are accepted.  Requests sent to peers stay in the
   list of pending ones until an answer (or a timeout, an error answer) comes; that
   an answer comes from the peer asked is modelled in E2E.v.  Databases, logs and
   memberships are left out: Replicate.v and Raft.v model them. *)
From Verif Require Export Base Hist.

(* enclaveconfig.proto:60-81 *)
Record gconf := GConf { gc_id : N; gc_min : N; gc_max : N; gc_super : N; gc_db : N; gc_att : N; gc_sim : bool }.
(* enclaveconfig.proto:31-54, the fields that are validated *)
Record econf := EConf { ec_election : N; ec_heartbeat : N; ec_chunk : N; ec_voting : N; ec_membership : N; ec_log : N; ec_pipeline : N; ec_txn : N }.

(* core.cc:39-50 RaftGroupConfigsEqualExceptForGroupID *)
Definition same_conf (a b : gconf) : bool :=
  (gc_min a =? gc_min b) && (gc_max a =? gc_max b) && (gc_super a =? gc_super b) && (gc_db a =? gc_db b)
  && (gc_att a =? gc_att b) && Bool.eqb (gc_sim a) (gc_sim b).
(* db.cc:16-29 DB::P *)
Definition db_protocol (v : N) : bool := match v with 2 | 3 | 4 | 5 => true | _ => false end.
(* core.cc:52-60 ValidateRaftGroupConfig *)
Definition valid_gconf (c : gconf) : bool :=
  if gc_max c <? gc_min c then false
  else if gc_min c <? 1 then false
  else if gc_att c <? 1 then false
  else db_protocol (gc_db c).
(* core.cc:62-74 DefaultEnclaveConfig *)
Definition default_econf : econf := EConf 32 15 (2 ^ 20) 60 300 (2 ^ 30) 4 60.
(* protobuf MergeFrom of numbers: a zero means the field is absent *)
Definition merge (d r : N) : N := if r =? 0 then d else r.
Definition merge_econf (d r : econf) : econf :=
  EConf (merge (ec_election d) (ec_election r)) (merge (ec_heartbeat d) (ec_heartbeat r)) (merge (ec_chunk d) (ec_chunk r))
    (merge (ec_voting d) (ec_voting r)) (merge (ec_membership d) (ec_membership r)) (merge (ec_log d) (ec_log r))
    (merge (ec_pipeline d) (ec_pipeline r)) (merge (ec_txn d) (ec_txn r)).
(* core.cc:163-174 ValidateConfig *)
Definition valid_econf (c : econf) : bool :=
  if ec_election c =? 0 then false
  else if ec_election c <=? ec_heartbeat c then false
  else if ec_chunk c <? 1024 then false
  else if ec_voting c <=? ec_election c then false
  else if ec_membership c <=? ec_voting c then false
  else if ec_log c <? 1024 then false
  else if (ec_pipeline c <=? 0) || (2 ^ 32 - 1 <=? ec_pipeline c) then false
  else negb (ec_txn c <? 1).

(* internal.h:24-36; the loads of one replica are told apart by the replication id *)
Record loading := Load { ld_conf : gconf; ld_from : bytes; ld_tx : N; ld_started : bool; ld_repl : N }.
(* internal.h:20-66, msgs.proto RaftState *)
Inductive phase :=
| NoState
| Waiting (peer : bytes) (tx : N)
| Loading (l : loading)
| Requesting (c : gconf)
| PartOf (c : gconf).
(* a request sent to a peer with what its callback has captured; the replication id
   is in the request, not in the callback *)
Inductive call := CGetRaft (peer : bytes) (tx : N) | CReplicate (peer : bytes) (tx : N) (repl : N).
Record core := Core { co_template : gconf; co_econf : econf; co_phase : phase; co_calls : list call }.

(* what a peer says about its group, core.cc:1192-1201, and what becomes of it *)
Record got_raft := GotRaft { g_conf : gconf; g_members : N; g_member_ok : bool; g_limits_ok : bool; g_connect_ok : bool }.
Inductive answer := AErr | AGetRaft (g : got_raft) (enough : bool) (repl : N) | ADone (refreshed : bool).
Inductive lop :=
| LCreate (tx : N) (rand : option N)
| LJoin (tx : N) (peer : option bytes) (connected : bool)
| LConnect (from : bytes) (enough : bool) (repl : N)
| LAnswer (i : nat) (a : answer)
| LMember (contains_me : bool)
| LReconfigure (r : econf).
Inductive event :=
| EReply (tx : N) (ok : bool)
| ESent (c : call)
| ECreated (c : gconf)
| EPromoted (l : loading)
| EReconfigured (ok : bool).

Definition set_phase (p : phase) (s : core) : core := Core (co_template s) (co_econf s) p (co_calls s).
Definition send (c : call) (s : core) : core * event := (Core (co_template s) (co_econf s) (co_phase s) (co_calls s ++ [c]), ESent c).

(* core.cc:107-129 Create, 131-161 Init *)
Definition new_core (e : econf) (g : gconf) : option core :=
  let c := merge_econf default_econf e in
  if negb (valid_econf c) then None
  else if negb (valid_gconf g) then None
  else Some (Core g c NoState []).

Definition with_id (id : N) (c : gconf) : gconf := GConf id (gc_min c) (gc_max c) (gc_super c) (gc_db c) (gc_att c) (gc_sim c).
(* core.cc:443-485 HandleCreateNewRaftGroupRequest; cfg.set_db_version(db_version_)
   sets what is there already, core.cc:102 *)
Definition create (s : core) (tx : N) (rand : option N) : core * list event :=
  match co_phase s with
  | NoState =>
      match rand with
      | None => (s, [EReply tx false])
      | Some id => let c := with_id id (co_template s) in (set_phase (PartOf c) s, [ECreated c; EReply tx true])
      end
  | _ => (s, [EReply tx false])
  end.

(* core.cc:519-527 JoinRaftFromFirstPeer; the CHECK is where [Crash] is *)
Definition join_first (s : core) : outcome (core * list event) :=
  match co_phase s with
  | Waiting peer tx => let '(s', e) := send (CGetRaft peer tx) s in Ret (s', [e])
  | _ => Crash
  end.
(* core.cc:487-517 HandleJoinRaft *)
Definition join (s : core) (tx : N) (peer : option bytes) (connected : bool) : outcome (core * list event) :=
  match co_phase s with
  | PartOf _ => Ret (s, [EReply tx false])
  | _ =>
      match peer with
      | None => Ret (s, [EReply tx false])
      | Some p =>
          let s' := set_phase (Waiting p tx) s in
          if connected then join_first s' else Ret (s', [])
      end
  end.

(* core.cc:594-631 RequestRaftReplication *)
Definition request_replication (s : core) (enough : bool) (repl : N) : core * list event :=
  match co_phase s with
  | Loading l =>
      if negb (ld_started l) && negb enough then (s, [])
      else
        let l' := Load (ld_conf l) (ld_from l) (ld_tx l) true repl in
        let '(s', e) := send (CReplicate (ld_from l) (ld_tx l) repl) (set_phase (Loading l') s) in (s', [e])
  | _ => (s, [])
  end.

(* core.cc:527-591, the callback of JoinRaftFromFirstPeer *)
Definition on_get_raft (s : core) (peer : bytes) (tx : N) (a : answer) : core * list event :=
  match a with
  | AGetRaft g enough repl =>
      match co_phase s with
      | Waiting _ _ =>
          if negb (same_conf (co_template s) (g_conf g)) then (s, [EReply tx false])
          else if g_members g =? 0 then (s, [EReply tx false])
          else if negb (g_member_ok g) then (s, [EReply tx false])
          else if negb (g_limits_ok g) then (s, [EReply tx false])
          else if negb (g_connect_ok g) then (s, [EReply tx false])
          else request_replication (set_phase (Loading (Load (g_conf g) peer tx false 0)) s) enough repl
      | _ => (s, [EReply tx false])
      end
  | _ => (s, [EReply tx false])
  end.

(* core.cc:626-646, the callback of RequestRaftReplication, and 649-673
   PromoteRaftToLoaded.  Neither looks at the state; in any other state than loading
   the log line reads through the null pointer raft_.loading.db. *)
Definition on_replicated (s : core) (tx : N) (a : answer) : outcome (core * list event) :=
  match a with
  | ADone refreshed =>
      match co_phase s with
      | Loading l =>
          if negb refreshed then Ret (s, [EReply tx false])
          else Ret (set_phase (Requesting (ld_conf l)) s, [EPromoted l])
      | _ => Crash
      end
  | _ => Ret (s, [EReply tx false])
  end.

Fixpoint take_nth {X} (n : nat) (l : list X) : list X :=
  match n, l with _, [] => [] | O, _ :: l' => l' | S n', x :: l' => x :: take_nth n' l' end.
(* core.cc:1127-1145 HandleE2E, a response to a request: it is looked up and taken out *)
Definition on_answer (s : core) (i : nat) (a : answer) : outcome (core * list event) :=
  match nth_error (co_calls s) i with
  | None => Ret (s, [])
  | Some c =>
      let s' := Core (co_template s) (co_econf s) (co_phase s) (take_nth i (co_calls s)) in
      match c with
      | CGetRaft peer tx => Ret (on_get_raft s' peer tx a)
      | CReplicate _ tx _ => on_replicated s' tx a
      end
  end.

(* core.cc:1152-1180 HandlePeerConnect *)
Definition on_connect (s : core) (from : bytes) (enough : bool) (repl : N) : outcome (core * list event) :=
  match co_phase s with
  | Loading l => if negb (ld_started l) then Ret (request_replication s enough repl) else Ret (s, [])
  | Waiting p _ => if beq from p then join_first s else Ret (s, [])
  | _ => Ret (s, [])
  end.

(* core.cc:1825-1857 HandleRaftMembershipChange, called for the committed entries of
   the replica's log only (core.cc:1808-1812), which there are in the states below *)
Definition on_member (s : core) (me : bool) : outcome (core * list event) :=
  match co_phase s with
  | PartOf c => Ret (if me then s else set_phase (Requesting c) s, [])
  | Requesting c => Ret (if me then set_phase (PartOf c) s else s, [])
  | _ => Crash
  end.

(* core.cc:800-816 HandleReconfigure *)
Definition reconfigure (s : core) (r : econf) : core * list event :=
  let c := merge_econf default_econf r in
  if valid_econf c then (Core (co_template s) c (co_phase s) (co_calls s), [EReconfigured true])
  else (s, [EReconfigured false]).

Definition life_step (s : core) (o : lop) : outcome (core * list event) :=
  match o with
  | LCreate tx rand => Ret (create s tx rand)
  | LJoin tx peer connected => join s tx peer connected
  | LConnect from enough repl => on_connect s from enough repl
  | LAnswer i a => on_answer s i a
  | LMember me => on_member s me
  | LReconfigure r => Ret (reconfigure s r)
  end.
