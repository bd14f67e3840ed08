(* Model of what a replica does with requests that go through the replicated log
   (enclave/core/core.cc: the end of HandleExistingClient, HandleHostDatabaseRequest and
   HandleUpdateMinimums, RaftWriteLogTransaction, AddLogTransaction,
   ClientLogTransaction, RaftHandleCommittedLogs, HandleRaftMembershipChange,
   HandleLogTransactionsForRaftLog) over the model of a raft replica in Raft.v.

   raft_.mu is held over a whole request and over the loop that applies committed
   entries.  Here each turn of that loop is a step of its own (CTake), so that more
   can happen in between than in the code.  The requests forwarded to the leader are
   those of E2E.v: their callbacks run at most once (C46), with an error or with what
   the other side answered.  Not modelled: the watchers of HandleRelinquishLeadership,
   RaftRequestMembership and HandlePeerRequestedRaftRemoval, and the effects of new
   limits (C55).  The database is any function; so is the client's side of an answer
   (ResponseFromEffect and EncryptResponse). *)
From Verif Require Export Raft Hist.

Section Core.
Variable sz : sizes.
Variable hmac : bytes -> bytes -> bytes.
Variables D E : Type.
(* core.cc:1887-1902 RaftApplyLogToDatabase; no effect: the log does not parse or is invalid *)
Variable apply : D -> bytes -> D * option E.
(* the encrypted response for a client; None: it could not be made *)
Variable respond : N -> E -> option bytes.
Variable min_voting : N.

(* whose request it is: a client's, or the host's *)
Inductive asker := AClient (c : N) | AHost.
(* requests are told apart by a running number; tx is the host's number *)
Record req := Req { q_no : N; q_tx : N; q_by : asker }.
(* core.h:282-294 *)
Record watch := Watch { w_req : req; w_at : loc }.
Record core := Core {
  c_node : node; c_db : D;
  c_part : bool;                 (* LOADED_PART_OF_GROUP; if not, LOADED_REQUESTING_MEMBERSHIP *)
  c_watch : list watch; c_fwd : list req; c_count : N;
  c_open : list N                (* the clients there are *)
}.
Definition set_node n s := Core n (c_db s) (c_part s) (c_watch s) (c_fwd s) (c_count s) (c_open s).

(* what the host is sent for a request *)
Inductive say := SData (b : bytes) | SDone | SError (code : N).
(* shared/proto/error.proto *)
Definition E_ClientNotFound := 206. Definition E_RaftState := 209. Definition E_LeaderUnknown := 214. Definition E_E2ETimeout := 215.
Definition E_NotEnoughVoting := 216. Definition E_LogCancelled := 219. Definition E_RemovedFromRaft := 220. Definition E_HashChain := 234.
Definition E_ResponseType := 235. Definition E_E2EReset := 243. Definition E_NoQuorumTimestamp := 244. Definition E_PeerSend := 401.
Definition E_ClientCancelled := 712. Definition E_ClientInvalid := 713. Definition E_ClientClosed := 714. Definition E_ClientResponse := 715.
Definition merr_code (e : merr) : N :=
  match e with
  | M_OK => 0 | M_TooMany => 901 | M_None => 902 | M_LeaderNotVoting => 903 | M_LeaderNotMember => 904 | M_VotingNotSubset => 905
  | M_EmptySet => 906 | M_Duplicate => 907 | M_SuperMajorityLost => 908 | M_InvalidID => 421
  end.
Definition lerr_code (e : lerr) : N :=
  match e with
  | L_OK => 0 | L_OutOfSpace => 501 | L_EntryTooLarge => 502 | L_CancelingBeforeFirst => 505 | L_AppendWithoutTerm => 506
  | L_NoHashChain => 508 | L_SetNextOnNonempty => 510
  end.
Definition rerr_code (e : rerr) : N :=
  match e with
  | RE_OK => 0 | RE_NotLeader => 504 | RE_MembershipChanging => 507 | RE_Membership e => merr_code e | RE_Log e => lerr_code e
  | RE_NotPeer => 511 | RE_WrongGroup => 512 | RE_InvalidType => 513 | RE_MsgHashMismatch => 514 | RE_MsgTruncated => 515
  | RE_MsgTermPromised => 517 | RE_AppendEntryIndex => 518 | RE_LogIndexOrdering => 519
  end.
(* core.cc:1619-1676 ClientLogTransaction and the callbacks of 786-797 and 899-906.
   res: inl an error; inr eff: no error, with the database's effect.  A response that
   cannot be made is always E_ClientResponse here; one that cannot be encrypted has
   EncryptResponse's code (client.cc), which is none of those that matter below. *)
Definition callback (q : req) (res : N + option E) (open : list N) : list N * (req * say) :=
  match q_by q with
  | AHost => (open, (q, match res with inr _ => SDone | inl code => SError code end))
  | AClient c =>
      let no code := (filter (fun x => negb (x =? c)) open, (q, SError code)) in
      match res with
      | inr (Some eff) =>
          if existsb (N.eqb c) open then
            match respond c eff with Some b => (open, (q, SData b)) | None => no E_ClientResponse end
          else no E_ClientClosed
      | inr None => no E_ClientInvalid
      | inl code => no (if code =? E_LogCancelled then E_ClientCancelled else code)
      end
  end.
Fixpoint callbacks (l : list (req * (N + option E))) (open : list N) : list N * list (req * say) :=
  match l with
  | [] => (open, [])
  | (q, res) :: l' =>
      let (o1, a) := callback q res open in
      let (o2, r) := callbacks l' o1 in
      (o2, a :: r)
  end.

(* the answer of the replica a request was forwarded to *)
Inductive fanswer := FError (code : N) | FLocated (l : loc) | FOther.
Inductive cop :=
| CWrite (tx : N) (by_ : asker) (x : inner) (ok : bool) (rnd : Z) (sent : bool)
| CAnswer (no : N) (a : fanswer)
| CRaft (o : rop)
| CTake (ok : bool)
| COpen (c : N) | CClose (c : N).
Record cres := CRes {
  r_no : option N;                       (* the number given to a request *)
  r_placed : option (N * loc);           (* a request is now known to be at this location *)
  r_taken : option (N * entry);          (* a committed entry was applied *)
  r_said : list (req * say) }.           (* answers to the host *)
Definition quiet_res := CRes None None None [].

(* core.cc:231-234, 786 and 899-909: an error of RaftWriteLogTransaction, given to the
   host as it is (it is never E_LogCancelled); the client is closed *)
Definition refuse (code : N) (q : req) (s : core) : core * cres :=
  let (open, a) := callback q (inl code) (c_open s) in
  (Core (c_node s) (c_db s) (c_part s) (c_watch s) (c_fwd s) (q_no q) open, CRes (Some (q_no q)) None None [a]).
(* core.cc:390-441 from the log on, 1678-1722 RaftWriteLogTransaction, 1609-1617
   AddLogTransaction.  The last [sent] says whether the peer manager can send; if not,
   the callback gets one of its errors (E_PeerSend here).  LogRequest always has a
   result. *)
Definition write (tx : N) (by_ : asker) (x : inner) (ok : bool) (rnd : Z) (sent : bool) (s : core) : outcome (core * cres) :=
  let q := Req (c_count s + 1) tx by_ in
  if negb match by_ with AClient c => existsb (N.eqb c) (c_open s) | AHost => true end then Ret (refuse E_ClientNotFound q s)
  else if negb (c_part s) then Ret (refuse E_RaftState q s)
  else if is_leader (c_node s) then
    if psize (m_voting (mship (c_node s))) <? min_voting then Ret (refuse E_NotEnoughVoting q s)
    else
      let* '(n, a) := rstep sz hmac (c_node s) (ORequest ok rnd x) in
      match a_loc a with
      | Some (l, RE_OK) =>
          Ret (Core n (c_db s) (c_part s) (c_watch s ++ [Watch q l]) (c_fwd s) (q_no q) (c_open s),
               CRes (Some (q_no q)) (Some (q_no q, l)) None [])
      | Some (_, er) => Ret (refuse (rerr_code er) q (set_node n s))
      | None => Ret (refuse 0 q (set_node n s))
      end
  else
    match n_role (c_node s) with
    | Follower (Some _) _ =>
        if sent then
          Ret (Core (c_node s) (c_db s) (c_part s) (c_watch s) (c_fwd s ++ [q]) (q_no q) (c_open s),
               CRes (Some (q_no q)) None None [])
        else Ret (refuse E_PeerSend q s)
    | _ => Ret (refuse E_LeaderUnknown q s)
    end.

(* core.cc:1700-1717: the callback of a forwarded request *)
Definition answer (no : N) (a : fanswer) (s : core) : core * cres :=
  match find (fun q => q_no q =? no) (c_fwd s) with
  | None => (s, quiet_res)
  | Some q =>
      let fwd := filter (fun q => negb (q_no q =? no)) (c_fwd s) in
      match a with
      | FLocated l =>
          (Core (c_node s) (c_db s) (c_part s) (c_watch s ++ [Watch q l]) fwd (c_count s) (c_open s),
           CRes None (Some (no, l)) None [])
      | _ =>
          let (open, r) := callback q (inl (match a with FError code => code | _ => E_ResponseType end)) (c_open s) in
          (Core (c_node s) (c_db s) (c_part s) (c_watch s) fwd (c_count s) open, CRes None None None [r])
      end
  end.

(* core.cc:87-95 ContainsMe *)
Definition contains_me (me : bytes) (g : rgroup) : bool := existsb (fun r => beq (rp_id r) me) g.
(* core.cc:1916-1926: what a watcher at the applied index is told *)
Definition outcome_for (e : entry) (eff : option E) (l : loc) : N + option E :=
  if negb (lc_term l =? e_term e) then inl E_LogCancelled
  else if ((0 <? blen (lc_hash l)) && negb (beq (lc_hash l) (e_hash e)))%bool then inl E_HashChain
  else inr eff.
(* core.cc:1787-1822, one turn; ok: VerifyLastAppliedLog (1976-1984).  1825-1857
   HandleRaftMembershipChange, 1904-1928 HandleLogTransactionsForRaftLog.  Watchers of
   one index are called in the order they came; in the code in any order. *)
Definition take (ok : bool) (s : core) : outcome (core * cres) :=
  let* '(n, a) := rstep sz hmac (c_node s) OTake in
  match a_taken a with
  | None => Ret (set_node n s, quiet_res)
  | Some (i, e) =>
      if negb ok then Crash else
      let '(db, eff) := match e_inner e with IData d => apply (c_db s) d | _ => (c_db s, None) end in
      let removed := match e_inner e with IMember g => (c_part s && negb (contains_me (n_me n) g))%bool | _ => false end in
      let part := match e_inner e with
                  | IMember g => contains_me (n_me n) g
                  | _ => c_part s
                  end in
      let gone := if removed then map (fun w => (w_req w, inl E_RemovedFromRaft)) (c_watch s) else [] in
      let left := if removed then [] else c_watch s in
      let here := filter (fun w => lc_idx (w_at w) =? i) left in
      let (open, said) := callbacks (gone ++ map (fun w => (w_req w, outcome_for e eff (w_at w))) here) (c_open s) in
      Ret (Core n db part (filter (fun w => negb (lc_idx (w_at w) =? i)) left) (c_fwd s) (c_count s) open,
           CRes None None (Some (i, e)) said)
  end.

Definition cstep (s : core) (o : cop) : outcome (core * cres) :=
  match o with
  | CWrite tx by_ x ok rnd sent => write tx by_ x ok rnd sent s
  | CAnswer no a => Ret (answer no a s)
  | CRaft OTake => Ret (s, quiet_res)
  | CRaft o => let* '(n, _) := rstep sz hmac (c_node s) o in Ret (set_node n s, quiet_res)
  | CTake ok => take ok s
  (* a new client (372-388; ids are never used twice: C45); 238-242 *)
  | COpen c => Ret (Core (c_node s) (c_db s) (c_part s) (c_watch s) (c_fwd s) (c_count s) (c :: c_open s), quiet_res)
  | CClose c => Ret (Core (c_node s) (c_db s) (c_part s) (c_watch s) (c_fwd s) (c_count s)
                       (filter (fun x => negb (x =? c)) (c_open s)), quiet_res)
  end.
(* core.cc:457-530 and 590-672: a replica that created a group or has finished joining
   one *)
Definition new_core (n : node) (db : D) (part : bool) : core := Core n db part [] [] 0 [].
End Core.
