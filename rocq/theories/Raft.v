(* Model of enclave/raft/raft.{h,cc} and internal.h: one replica.

   Simplifications: indexes and terms are unbounded N (no replica counts to
   2^64; the types are uint64_t); RandomElectionTimeout (1368-1370) is an input
   of each call (at most one of the values drawn in a call survives); the
   integrity tree over commit_idx_/promise_idx_ (1455-1484) is replaced by its
   verdict, an input; logging and metrics are left out.  follower_, candidate_
   and leader_ are merged with role_: SetRole (74-81) clears all three, and only
   the one of the current role is read. *)
From Verif Require Export Membership SMap.

Record rconfig := RConfig { c_eticks : Z; c_hticks : Z; c_batch : N; c_chunk : N }.

(* raft.proto 35-66 *)
Inductive rbody :=
| VoteReq (last_idx last_term : N) (last_hash : bytes)
| VoteResp (granted : bool)
| AppReq (prev_idx prev_term commit : N) (es : list entry) (promise : N) (prev_hash : bytes)
| AppResp (success : bool) (match_idx last_idx promise : N) (match_hash : bytes)
| TimeoutNow
| BodyNone.
Record rmsg := RMsg { m_group : N; m_term : N; m_body : rbody }.

(* util/ticks.cc:7 InvalidTicks: INT64_MAX *)
Definition invalid_ticks : Z := 2 ^ 63 - 1.
(* internal.h:21-61 ReplicationState *)
Record repl := Repl { f_next : N; f_match : N; f_promise : N; f_inflight : option N;
                      f_probe : bool; f_hb : bool; f_upd : bool; f_seen : Z }.
(* internal.h:63-85 *)
Inductive rrole :=
| Follower (leader : option bytes) (election : Z)
| Candidate (votes : pset) (election : Z)
| Leader (fs : list (bytes * repl)) (heartbeat : Z) (relinquishing : bool).

(* raft.h:250-290 *)
Record node := Node {
  n_group : N; n_me : bytes; n_mem : members; n_unc : list (N * members);
  n_cfg : rconfig; n_applied : N; n_term : N; n_voted : option bytes; n_role : rrole;
  n_log : rlog; n_commit : N; n_promise : N; n_sm : N;
  n_out : list (option bytes * rmsg)           (* sendable_messages_; None: broadcast *)
}.
Definition set_role r n := Node (n_group n) (n_me n) (n_mem n) (n_unc n) (n_cfg n) (n_applied n) (n_term n) (n_voted n) r (n_log n) (n_commit n) (n_promise n) (n_sm n) (n_out n).
Definition set_log l n := Node (n_group n) (n_me n) (n_mem n) (n_unc n) (n_cfg n) (n_applied n) (n_term n) (n_voted n) (n_role n) l (n_commit n) (n_promise n) (n_sm n) (n_out n).
Definition set_term t n := Node (n_group n) (n_me n) (n_mem n) (n_unc n) (n_cfg n) (n_applied n) t (n_voted n) (n_role n) (n_log n) (n_commit n) (n_promise n) (n_sm n) (n_out n).
Definition set_voted v n := Node (n_group n) (n_me n) (n_mem n) (n_unc n) (n_cfg n) (n_applied n) (n_term n) v (n_role n) (n_log n) (n_commit n) (n_promise n) (n_sm n) (n_out n).
Definition set_members m u n := Node (n_group n) (n_me n) m u (n_cfg n) (n_applied n) (n_term n) (n_voted n) (n_role n) (n_log n) (n_commit n) (n_promise n) (n_sm n) (n_out n).
Definition set_commit c n := Node (n_group n) (n_me n) (n_mem n) (n_unc n) (n_cfg n) (n_applied n) (n_term n) (n_voted n) (n_role n) (n_log n) c (n_promise n) (n_sm n) (n_out n).
Definition set_promise p n := Node (n_group n) (n_me n) (n_mem n) (n_unc n) (n_cfg n) (n_applied n) (n_term n) (n_voted n) (n_role n) (n_log n) (n_commit n) p (n_sm n) (n_out n).
Definition set_applied a n := Node (n_group n) (n_me n) (n_mem n) (n_unc n) (n_cfg n) a (n_term n) (n_voted n) (n_role n) (n_log n) (n_commit n) (n_promise n) (n_sm n) (n_out n).
Definition set_cfg c n := Node (n_group n) (n_me n) (n_mem n) (n_unc n) c (n_applied n) (n_term n) (n_voted n) (n_role n) (n_log n) (n_commit n) (n_promise n) (n_sm n) (n_out n).
Definition set_out o n := Node (n_group n) (n_me n) (n_mem n) (n_unc n) (n_cfg n) (n_applied n) (n_term n) (n_voted n) (n_role n) (n_log n) (n_commit n) (n_promise n) (n_sm n) o.

(* raft.cc:1422-1429 membership *)
Definition mship (n : node) : members := last (map snd (n_unc n)) (n_mem n).
Definition voting (n : node) : bool := pmem (n_me n) (m_voting (mship n)).      (* raft.h:122 *)
Definition quorum (n : node) : N := quorum_size (psize (m_voting (mship n))) (n_sm n).   (* raft.cc:55-57 *)
Definition is_leader (n : node) : bool := match n_role n with Leader _ _ _ => true | _ => false end.
Definition map_followers (f : repl -> repl) (fs : list (bytes * repl)) : list (bytes * repl) :=
  map (fun kv => (fst kv, f (snd kv))) fs.

(* raft.cc:1116-1127 AddSendableMessage *)
Definition add_msg (to : option bytes) (m : rmsg) (n : node) : outcome node :=
  match to with
  | Some p => if beq p (n_me n) then Crash else Ret (set_out (n_out n ++ [(to, m)]) n)
  | None =>
      if ((psize (m_all (mship n)) =? 1) && pmem (n_me n) (m_all (mship n)))%bool then Ret n
      else Ret (set_out (n_out n ++ [(to, m)]) n)
  end.
Definition reply (to : bytes) (b : rbody) (n : node) : outcome node :=
  add_msg (Some to) (RMsg (n_group n) (n_term n) b) n.

(* raft.cc:83-93 TakeCommittedLog *)
Definition take_committed (n : node) : outcome (node * option (N * entry)) :=
  if n_commit n <=? n_applied n then Ret (n, None)
  else
    let i := n_applied n + 1 in
    match at_idx (n_log n) i with
    | None => Crash
    | Some e => Ret (set_applied i n, Some (i, e))
    end.

(* raft.cc:273-292 RequestVoteMessage *)
Definition hash_at (l : rlog) (i : N) : bytes := match at_idx l i with Some e => e_hash e | None => [] end.
Definition vote_request (n : node) : outcome rbody :=
  match n_role n with
  | Candidate _ _ => Ret (VoteReq (last_idx (n_log n)) (last_term (n_log n)) (hash_at (n_log n) (last_idx (n_log n))))
  | _ => Crash
  end.

(* raft.cc:234-270 ElectionTimeout *)
Definition election_timeout (rnd : Z) (n : node) : outcome node :=
  if negb (voting n) then
    Ret (match n_role n with Follower l _ => set_role (Follower l rnd) n | _ => n end)
  else
    match n_role n with
    | Leader _ _ _ => Ret n
    | _ =>
        let n1 := set_role (Candidate [n_me n] rnd) (set_voted (Some (n_me n)) (set_term (n_term n + 1) n)) in
        let* b := vote_request n1 in
        add_msg None (RMsg (n_group n1) (n_term n1) b) n1
    end.

(* raft.cc:438-472 HandleMembershipChange *)
Definition handle_membership_change (n : node) : node :=
  match n_role n with
  | Leader fs hb rel =>
      let fresh := Repl (next_idx (n_log n)) 0 0 None true true false (c_eticks (n_cfg n)) in
      let fs1 := fold_left (fun m p => if negb (beq p (n_me n)) && match lookup p m with None => true | _ => false end
                                       then put p fresh m else m)%bool (m_all (mship n)) fs in
      set_role (Leader (filter (fun kv => pmem (fst kv) (m_all (mship n))) fs1) hb rel) n
  | _ => n
  end.

(* raft.cc:429-436 AddUncommittedMembership *)
Definition add_uncommitted (idx : N) (m : members) (n : node) : outcome node :=
  match n_unc n with
  | [] => Ret (handle_membership_change (set_members (n_mem n) [(idx, m)] n))
  | u => if fst (last u (0, m)) <? idx
         then Ret (handle_membership_change (set_members (n_mem n) (u ++ [(idx, m)]) n))
         else Crash
  end.

(* raft.cc:993-1017 MaybeChangeUncommittedMembershipsBasedOnLog *)
Fixpoint pop_committed (commit : N) (m : members) (u : list (N * members)) : members * list (N * members) :=
  match u with
  | (i, m') :: u' => if i <=? commit then pop_committed commit m' u' else (m, u)
  | [] => (m, [])
  end.
Fixpoint pop_cancelled (last : N) (rev_u : list (N * members)) : list (N * members) :=
  match rev_u with
  | (i, m) :: r => if last <? i then pop_cancelled last r else rev_u
  | [] => []
  end.
Definition refresh_members (n : node) : node :=
  let (m, u) := pop_committed (n_commit n) (n_mem n) (n_unc n) in
  let u' := rev (pop_cancelled (last_idx (n_log n)) (rev u)) in
  if Nat.eqb (length u') (length (n_unc n)) then n
  else handle_membership_change (set_members m u' n).

(* raft.cc:481-507 NextHash.  [hmac] is HmacSha256(key, input). *)
Definition tagged (x : inner) (idx term : N) : bytes :=
  match x with
  | IData d => [1] ++ be64 idx ++ be64 term ++ d
  | IMember g => [2] ++ be64 idx ++ be64 term ++ ser_group g
  | IMins m => [4] ++ be64 idx ++ be64 term ++ m
  | INone => [3] ++ be64 idx ++ be64 term
  end.

Section Raft.
Variable sz : sizes.
Variable hmac : bytes -> bytes -> bytes.

Definition next_hash (l : rlog) (term : N) (x : inner) : bytes :=
  hmac (recent_hash l) (tagged x (next_idx l) term).

Inductive rerr := RE_OK | RE_NotLeader | RE_MembershipChanging | RE_Membership (e : merr) | RE_Log (e : lerr)
  | RE_WrongGroup | RE_NotPeer | RE_MsgTruncated | RE_MsgTermPromised | RE_MsgHashMismatch
  | RE_AppendEntryIndex | RE_LogIndexOrdering | RE_InvalidType.
Record loc := Loc { lc_term : N; lc_idx : N; lc_hash : bytes }.
Definition no_loc := Loc 0 0 [].

(* raft.cc:193-220 LogAppend *)
Definition log_append (e : entry) (n : node) : outcome (node * (loc * rerr)) :=
  let mem := match e_inner e with IMember g => Some (from_proto g) | _ => None end in
  match mem with
  | Some (_, M_OK) | None =>
      let* '(l, er) := append sz e (n_applied n) (n_log n) in
      let n1 := set_log l n in
      match er with
      | L_OK =>
          let here := Loc (n_term n1) (last_idx l) (e_hash e) in
          match mem with
          | Some (m, _) => let* n2 := add_uncommitted (lc_idx here) m n1 in Ret (n2, (here, RE_OK))
          | None => Ret (n1, (here, RE_OK))
          end
      | _ => Ret (n1, (no_loc, RE_Log er))
      end
  | Some (_, er) => Ret (n, (no_loc, RE_Membership er))
  end.

(* raft.cc:510-526 ClientRequestInternal *)
Definition client_request (x : inner) (n : node) : outcome (node * (loc * rerr)) :=
  match n_role n with
  | Leader _ _ false => log_append (Entry (n_term n) x (next_hash (n_log n) (n_term n) x)) n
  | _ => Ret (n, (no_loc, RE_NotLeader))
  end.

(* raft.cc:406-427 MaybeBecomeLeader; the result of the append is not looked at *)
Definition maybe_become_leader (n : node) : outcome node :=
  match n_role n with
  | Candidate votes _ =>
      if psize votes <? quorum n then Ret n
      else
        let fs := fold_left (fun m p => if beq p (n_me n) then m
                               else put p (Repl (next_idx (n_log n)) 0 0 None false false false 0%Z) m)
                            (m_all (mship n)) [] in
        let* '(n1, _) := client_request INone (set_role (Leader fs 0%Z false) n) in Ret n1
  | _ => Ret n
  end.

(* std::sort descending *)
Fixpoint insert_desc (x : N) (l : list N) : list N :=
  match l with [] => [x] | y :: l' => if y <=? x then x :: l else y :: insert_desc x l' end.
Definition sort_desc (l : list N) : list N := fold_right insert_desc [] l.
(* v[k-1], undefined outside *)
Definition kth (k : N) (l : list N) : outcome N :=
  if k =? 0 then Crash else match nth_error l (N.to_nat (k - 1)) with Some x => Ret x | None => Crash end.

(* raft.cc:571-678 MaybeAdvanceCommitIndex *)
Definition voter_values (f : repl -> N) (n : node) (fs : list (bytes * repl)) : list N :=
  map (fun kv => f (snd kv)) (filter (fun kv => pmem (fst kv) (m_voting (mship n))) fs).
Definition mark_update (n : node) : node :=
  match n_role n with
  | Leader fs hb rel =>
      set_role (Leader (map_followers (fun f => Repl (f_next f) (f_match f) (f_promise f) (f_inflight f)
                                         (f_probe f) (f_hb f) true (f_seen f)) fs) hb rel) n
  | _ => n
  end.
Definition advance_commit (n : node) : outcome node :=
  match n_role n with
  | Leader fs _ _ =>
      let* new_promise := kth (quorum n) (sort_desc (voter_values f_match n fs ++ [last_idx (n_log n)])) in
      let p := n_promise n <? new_promise in
      let n1 := if p then set_promise new_promise n else n in
      let* new_commit := kth (quorum n1) (sort_desc (voter_values f_promise n fs ++ [n_promise n1])) in
      let c := n_commit n1 <? new_commit in
      let n2 := if c then refresh_members (set_commit new_commit n1) else n1 in
      Ret (if (p || c)%bool then mark_update n2 else n2)
  | _ => Ret n
  end.

(* raft.cc:298-404 AppendEntries *)
Fixpoint take_chunk (max total : N) (es : list entry) : list entry :=
  match es with
  | [] => []
  | e :: es' => if max <=? total + byte_size e then [e] else e :: take_chunk max (total + byte_size e) es'
  end.
Definition entries_from (l : rlog) (idx : N) : list entry :=
  if idx <? l_oldest l then [] else skipn (N.to_nat (idx - l_oldest l)) (l_entries l).
Definition append_entries (peer : bytes) (n : node) : outcome node :=
  match n_role n with
  | Leader fs hb rel =>
      match lookup peer fs with
      | None => Ret n
      | Some f =>
          let l := n_log n in
          let next := N.max (f_next f) (match f_inflight f with Some i => i | None => 0 end + 1) in
          let inflight := match f_inflight f with Some _ => true | None => false end in
          let send_hb := (f_hb f && negb inflight)%bool in
          let threshold := c_batch (n_cfg n) <=? last_idx l - n_commit n in
          let send_entries := ((next <=? last_idx l) && negb (f_probe f))%bool in
          if negb (send_entries || send_hb || f_probe f || f_upd f) then Ret n else
          if (inflight && threshold)%bool then Ret n else
          let prev := next - 1 in
          let prev_term := if prev =? 0 then 0 else term_at l prev in
          let prev_hash := if prev =? 0 then [] else hash_at l prev in
          if ((prev_term =? 0) && negb (prev =? 0))%bool then Ret n else
          let es := if send_entries then take_chunk (c_chunk (n_cfg n)) 0 (entries_from l next) else [] in
          let last_entry := prev + N.of_nat (length es) in
          let b := AppReq prev prev_term (N.min (n_commit n) last_entry) es (N.min (n_promise n) last_entry) prev_hash in
          let f' := Repl (f_next f) (f_match f) (f_promise f) (Some last_entry) (f_probe f) false false (f_seen f) in
          reply peer b (set_role (Leader (put peer f' fs) hb rel) n)
      end
  | _ => Ret n
  end.

(* raft.cc:1337-1366 TryToRelinquishLeadership *)
Definition try_relinquish (rnd : Z) (n : node) : outcome node :=
  match n_role n with
  | Leader fs _ _ =>
      match find (fun p => negb (beq p (n_me n))
                    && match lookup p fs with Some f => f_match f =? last_idx (n_log n) | None => false end)%bool
                 (m_voting (mship n)) with
      | None => Ret n
      | Some next => let* n1 := reply next TimeoutNow n in Ret (set_role (Follower None rnd) n1)
      end
  | _ => Ret n
  end.

(* raft.cc:1320-1335 MaybeChangeStateAndSendMessages; ok: VerifyMerkleTree *)
Definition send_all (n : node) : outcome node :=
  fold_left (fun o p => let* m := o in if beq p (n_me n) then Ret m else append_entries p m)
            (m_all (mship n)) (Ret n).
Definition change_state (ok : bool) (rnd : Z) (n : node) : outcome node :=
  let* n1 := maybe_become_leader n in
  let* n2 := if ok then advance_commit n1 else Ret n1 in
  let* n3 := send_all n2 in
  match n_role n3 with
  | Leader _ _ true => try_relinquish rnd n3
  | _ => Ret n3
  end.

(* raft.cc:112-142 TimerTick *)
Definition timer_tick (ok : bool) (rnd : Z) (n : node) : outcome node :=
  let* n1 :=
    match n_role n with
    | Follower l e =>
        let n' := set_role (Follower l (e - 1)) n in
        if (e - 1 <=? 0)%Z then election_timeout rnd n' else Ret n'
    | Candidate v e =>
        let n' := set_role (Candidate v (e - 1)) n in
        if (e - 1 <=? 0)%Z then election_timeout rnd n' else Ret n'
    | Leader fs hb rel =>
        let fs1 := map_followers (fun f => if (f_seen f =? invalid_ticks)%Z then f
                     else Repl (f_next f) (f_match f) (f_promise f) (f_inflight f) (f_probe f) (f_hb f) (f_upd f) (f_seen f + 1)) fs in
        if (hb - 1 <=? 0)%Z then
          Ret (set_role (Leader (map_followers (fun f => Repl (f_next f) (f_match f) (f_promise f) (f_inflight f)
                                    (f_probe f) true (f_upd f) (f_seen f)) fs1) (c_hticks (n_cfg n)) rel) n)
        else Ret (set_role (Leader fs1 (hb - 1) rel) n)
    end in
  change_state ok rnd n1.

(* raft.cc:144-171 ResetPeer *)
Definition reset_peer (id : bytes) (n : node) : outcome node :=
  if negb (pmem id (m_all (mship n))) then Ret n else
  match n_role n with
  | Follower _ _ => Ret n
  | Candidate _ _ => let* b := vote_request n in reply id b n
  | Leader fs hb rel =>
      match lookup id fs with
      | None => Ret n
      | Some f => Ret (set_role (Leader (put id (Repl (last_idx (n_log n) + 1) (f_match f) (f_promise f) None true true false (f_seen f)) fs) hb rel) n)
      end
  end.

(* raft.cc:103-111, 172-177 Reconfigure *)
Definition reconfigure (c : rconfig) (n : node) : node :=
  let n1 := set_cfg c n in
  set_role (match n_role n with
            | Follower l e => Follower l (Z.min (c_eticks c) e)
            | Candidate v e => Candidate v (Z.min (c_eticks c) e)
            | Leader fs _ rel => Leader fs (c_hticks c) rel
            end) n1.

(* raft.cc:179-191 RelinquishLeadership *)
Definition relinquish (ok : bool) (rnd : Z) (n : node) : outcome node :=
  match n_role n with
  | Leader _ _ false =>
      let* '(n1, _) := client_request INone n in
      match n_role n1 with
      | Leader fs hb _ => change_state ok rnd (set_role (Leader fs hb true) n1)
      | _ => Crash
      end
  | _ => Ret n
  end.

(* raft.cc:528-565 LogRequest *)
Definition log_request (ok : bool) (rnd : Z) (x : inner) (n : node) : outcome (node * (loc * rerr)) :=
  let refused :=
    match x with
    | IMember g =>
        match n_role n with
        | Leader _ _ false =>
            match n_unc n with
            | _ :: _ => RE_MembershipChanging
            | [] =>
                match from_proto g with
                | (m, M_OK) =>
                    match valid_progression (n_me n) (n_mem n) m (n_sm n) with
                    | M_OK => RE_OK
                    | er => RE_Membership er
                    end
                | (_, er) => RE_Membership er
                end
            end
        | _ => RE_NotLeader
        end
    | _ => RE_OK
    end in
  match refused with
  | RE_OK =>
      let* '(n1, res) := client_request x n in
      let* n2 := change_state ok rnd n1 in
      Ret (n2, res)
  | er => Ret (n, (no_loc, er))
  end.

(* raft.cc:687-737 HandleVoteRequest *)
Definition handle_vote_request (rnd : Z) (mterm lidx lterm : N) (from : bytes) (n : node) : outcome node :=
  let log_ok := ((last_term (n_log n) <? lterm)
                 || ((lterm =? last_term (n_log n)) && (last_idx (n_log n) <=? lidx)))%bool in
  let grant := ((mterm =? n_term n) && log_ok
                && match n_voted n with None => true | Some v => beq v from end)%bool in
  if n_term n <? mterm then Ret n else
  let n1 := if grant then
              set_role (match n_role n with Follower l _ => Follower l rnd | r => r end) (set_voted (Some from) n)
            else n in
  reply from (VoteResp grant) n1.

(* raft.cc:741-759 HandleVoteResponse *)
Definition handle_vote_response (mterm : N) (granted : bool) (from : bytes) (n : node) : node :=
  if negb (mterm =? n_term n) then n else
  match n_role n with
  | Candidate votes e =>
      if (granted && pmem from (m_voting (mship n)))%bool then set_role (Candidate (pins from votes) e) n else n
  | _ => n
  end.

(* raft.cc:889-933: the loop over the entries of an append request.  [idx] is
   msg_entry_log_idx, the result is last_processed_idx. *)
Fixpoint process_entries (es : list entry) (idx : N) (processed : N) (n : node) : outcome (node * N) :=
  match es with
  | [] => Ret (n, processed)
  | e :: es' =>
      let ours := term_at (n_log n) idx in
      let conflict := (negb (ours =? 0) && negb (ours =? e_term e))%bool in
      if (conflict && ((idx <=? n_commit n) || (idx <=? n_promise n)))%bool then Ret (n, processed) else
      let cancelled := if conflict then
                         match cancel_from idx (n_log n) with
                         | (l, L_OK) => Some (refresh_members (set_log l n))
                         | _ => None
                         end
                       else Some n in
      match cancelled with
      | None => Ret (n, processed)
      | Some n1 =>
          if idx =? last_idx (n_log n1) + 1 then
            if negb (beq (next_hash (n_log n1) (e_term e) (e_inner e)) (e_hash e)) then Ret (n1, processed) else
            let* '(n2, (_, er)) := log_append e n1 in
            match er with
            | RE_OK => process_entries es' (idx + 1) idx n2
            | _ => Ret (n2, processed)
            end
          else process_entries es' (idx + 1) idx n1
      end
  end.

(* raft.cc:765-991 HandleAppendRequest; ok: VerifyMerkleTree on line 944 *)
Definition handle_append_request (ok : bool) (rnd : Z) (mterm prev prev_term commit : N) (es : list entry)
    (promise : N) (from : bytes) (n : node) : outcome node :=
  let our_prev := at_idx (n_log n) prev in
  let log_ok := ((prev =? 0) || match our_prev with Some e => prev_term =? e_term e | None => false end)%bool in
  if n_term n <? mterm then Ret n else
  let reject n :=
    reply from (AppResp false (n_commit n) (last_idx (n_log n)) (n_promise n) (hash_at (n_log n) (n_commit n))) n in
  if mterm <? n_term n then reject n else
  match n_role n with
  | Leader _ _ _ => Ret n
  | _ =>
      let n0 := set_role (Follower (Some from) rnd) n in
      if negb log_ok then reject n0 else
      let* '(n1, processed) := process_entries es (prev + 1) prev n0 in
      let lc := N.min commit processed in
      let lp := N.min promise processed in
      if (((n_commit n1 <? lc) || (n_promise n1 <? lp)) && negb ok)%bool then Ret n1 else
      let n2 := if n_promise n1 <? lp then set_promise lp n1 else n1 in
      let n3 := if n_commit n2 <? lc then refresh_members (set_commit lc n2) else n2 in
      reply from (AppResp true processed (last_idx (n_log n3)) (N.min (n_promise n3) processed)
                    (hash_at (n_log n3) processed)) n3
  end.

(* raft.cc:1105-1113: step next_idx back over entries that fit one chunk *)
Fixpoint step_back (fuel : nat) (l : rlog) (chunk next matched : N) : N :=
  match fuel with
  | O => next
  | S fuel' =>
      if next - 1 <=? matched then next else
      let s := ser_size_at l next in
      if chunk <? s then next else step_back fuel' l (chunk - s) (next - 1) matched
  end.

(* raft.cc:1021-1114 HandleAppendResponse *)
Definition handle_append_response (mterm : N) (success : bool) (midx mlast mpromise : N) (mhash from : bytes) (n : node)
  : outcome node :=
  if negb (mterm =? n_term n) then Ret n else
  match n_role n with
  | Leader fs hb rel =>
      match lookup from fs with
      | None => Ret n
      | Some f =>
          if success then
            let inflight := match f_inflight f with Some i => if i <=? midx then None else Some i | None => None end in
            if match at_idx (n_log n) midx with
               | Some e => beq mhash (e_hash e)
               | None => midx <=? last_idx (n_log n)
               end
            then
              let f' := Repl (N.max (f_next f) (midx + 1)) (N.max (f_match f) midx) (N.max (f_promise f) mpromise)
                          inflight false (f_hb f) (f_upd f) (f_seen f) in
              Ret (set_role (Leader (put from f' fs) hb rel) n)
            else Crash
          else
            let next := N.max (midx + 1) (N.min (f_next f - 1) (mlast + 1)) in
            let next' := step_back (N.to_nat next) (n_log n) (c_chunk (n_cfg n)) next midx in
            Ret (set_role (Leader (put from (Repl next' (f_match f) (f_promise f) None true (f_hb f) (f_upd f) (f_seen f)) fs) hb rel) n)
      end
  | _ => Ret n
  end.

(* raft.cc:1130-1158 UpdateTerm *)
Definition update_term (rnd : Z) (mterm : N) (n : node) : node :=
  if mterm <=? n_term n then n else
  let e := match n_role n with Follower _ e => e | Candidate _ e => e | Leader _ _ _ => rnd end in
  set_voted None (set_role (Follower None e) (set_term mterm n)).

(* raft.cc:1172-1195 CheckLogHash *)
Definition check_log_hash (n : node) (idx term : N) (hash : bytes) : outcome rerr :=
  let l := n_log n in
  if idx =? 0 then Ret RE_OK else
  if idx <? oldest_idx l then Ret RE_MsgTruncated else
  if last_idx l <? idx then Ret RE_OK else
  match at_idx l idx with
  | None => Crash
  | Some e =>
      if (negb (term =? 0) && (e_term e <? term))%bool then
        Ret (if n_promise n <? idx then RE_OK else RE_MsgTermPromised)
      else if (negb (term =? 0) && (term <? e_term e))%bool then Ret RE_OK
      else if beq hash (e_hash e) then Ret RE_OK else Ret RE_MsgHashMismatch
  end.

(* raft.cc:1228-1234 *)
Fixpoint check_entries (n : node) (es : list entry) (idx : N) : outcome rerr :=
  match es with
  | [] => Ret RE_OK
  | e :: es' =>
      let* er := check_log_hash n idx (e_term e) (e_hash e) in
      match er with RE_OK => check_entries n es' (idx + 1) | _ => Ret er end
  end.

(* raft.cc:1197-1254 ValidateReceivedMessage *)
Definition validate_msg (m : rmsg) (from : bytes) (n : node) : outcome rerr :=
  if negb (m_group m =? n_group n) then Ret RE_WrongGroup else
  if negb (pmem from (m_all (mship n))) then Ret RE_NotPeer else
  match m_body m with
  | VoteReq lidx lterm h => check_log_hash n lidx lterm h
  | VoteResp _ | TimeoutNow => Ret RE_OK
  | AppReq prev prev_term commit es promise prev_hash =>
      let* er := check_log_hash n prev prev_term prev_hash in
      match er with
      | RE_OK =>
          let top := prev + N.of_nat (length es) in
          if top <? commit then Ret RE_AppendEntryIndex else
          if top <? promise then Ret RE_AppendEntryIndex else
          if promise <? commit then Ret RE_LogIndexOrdering else
          check_entries n es (prev + 1)
      | _ => Ret er
      end
  | AppResp _ midx mlast mpromise mhash =>
      let* er := check_log_hash n midx 0 mhash in
      match er with
      | RE_OK => if ((mlast <? midx) || (mlast <? mpromise))%bool then Ret RE_LogIndexOrdering else Ret RE_OK
      | _ => Ret er
      end
  | BodyNone => Ret RE_InvalidType
  end.

(* raft.cc:1257-1318 Receive; ok1, ok2: VerifyMerkleTree on lines 944 and 1322 *)
Definition seen_now (from : bytes) (n : node) : node :=
  match n_role n with
  | Leader fs hb rel =>
      match lookup from fs with
      | Some f => set_role (Leader (put from (Repl (f_next f) (f_match f) (f_promise f) (f_inflight f)
                                     (f_probe f) (f_hb f) (f_upd f) 0) fs) hb rel) n
      | None => n
      end
  | _ => n
  end.
Definition receive (ok1 ok2 : bool) (rnd : Z) (m : rmsg) (from : bytes) (n : node) : outcome node :=
  let* er := validate_msg m from n in
  match er with
  | RE_OK =>
      let n1 := seen_now from (update_term rnd (m_term m) n) in
      let stale := m_term m <? n_term n1 in
      let* n2 :=
        match m_body m with
        | VoteReq lidx lterm _ => handle_vote_request rnd (m_term m) lidx lterm from n1
        | VoteResp g => if stale then Ret n1 else Ret (handle_vote_response (m_term m) g from n1)
        | AppReq prev prev_term commit es promise _ =>
            handle_append_request ok1 rnd (m_term m) prev prev_term commit es promise from n1
        | AppResp s midx mlast mpromise mhash =>
            if stale then Ret n1 else handle_append_response (m_term m) s midx mlast mpromise mhash from n1
        | TimeoutNow => if stale then Ret n1 else election_timeout rnd n1
        | BodyNone => Ret n1
        end in
      change_state ok2 rnd n2
  | _ => Ret n
  end.

(* raft.cc:19-53 Raft::Raft *)
Definition new_node (group : N) (me : bytes) (mem : members) (log : rlog) (cfg : rconfig) (committed : bool) (sm : N)
    (ok : bool) (rnd : Z) : outcome node :=
  let i := if committed then last_idx log else 0 in
  let n := Node group me mem [] cfg i 0 None (Follower None rnd) log i i sm [] in
  if (voting n && (psize (m_voting mem) =? 1))%bool then
    let* n1 := election_timeout rnd n in
    let* n2 := change_state ok rnd n1 in
    match n_out n2 with [] => Ret n2 | _ => Crash end
  else Ret n.

(* The calls core makes, each followed by SendableMessages (raft.h:162). *)
Inductive rop :=
| OTick (ok : bool) (rnd : Z)
| OReceive (ok1 ok2 : bool) (rnd : Z) (from : bytes) (m : rmsg)
| OReset (id : bytes)
| OReconfigure (c : rconfig)
| ORelinquish (ok : bool) (rnd : Z)
| ORequest (ok : bool) (rnd : Z) (x : inner)
| OTake.
Record ranswer := RAnswer { a_sent : list (option bytes * rmsg);   (* messages to send *)
                            a_loc : option (loc * rerr);          (* result of LogRequest *)
                            a_taken : option (N * entry) }.       (* result of TakeCommittedLog *)
Definition sent (n : node) (l : option (loc * rerr)) (t : option (N * entry)) : node * ranswer :=
  (set_out [] n, RAnswer (n_out n) l t).
Definition rstep (n : node) (o : rop) : outcome (node * ranswer) :=
  match o with
  | OTick ok rnd => let* n' := timer_tick ok rnd n in Ret (sent n' None None)
  | OReceive ok1 ok2 rnd from m => let* n' := receive ok1 ok2 rnd m from n in Ret (sent n' None None)
  | OReset id => let* n' := reset_peer id n in Ret (sent n' None None)
  | OReconfigure c => Ret (sent (reconfigure c n) None None)
  | ORelinquish ok rnd => let* n' := relinquish ok rnd n in Ret (sent n' None None)
  | ORequest ok rnd x => let* '(n', r) := log_request ok rnd x n in Ret (sent n' (Some r) None)
  | OTake => let* '(n', t) := take_committed n in Ret (sent n' None t)
  end.
End Raft.
