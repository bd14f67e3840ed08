(* A group of whole replicas: each is a core (CoreTx.v) with its raft node, its
   database and the requests it waits for, over the network of RaftNet.v.  Requests
   made at a replica that does not lead are forwarded to the leader and answered with
   the location of their entry (core.cc:1506-1527 HandleRaftWrite).

   The network drops, duplicates, delays and reorders messages, forwarded requests and
   their answers, and forges none.  The host may put a replica back to any earlier
   state, database included.  A call that crashes a replica has no effect here. *)
From Verif Require Export CoreTx RaftSpec RaftNet.

Section Group.
Variable sz : sizes.
Variable hmac : bytes -> bytes -> bytes.
Variables D E : Type.
Variable apply : D -> bytes -> D * option E.
Variable respond : N -> E -> option bytes.
Variable min_voting : N.
Notation core := (core D).
Notation cstep := (cstep sz hmac D E apply respond min_voting).
Notation c_node := (c_node D).

(* what can be seen from outside *)
Inductive seen :=
| Asked (q : req) (x : inner)                   (* a request arrives at a replica *)
| Took (i : N) (e : entry) (eff : option E)     (* a replica's database runs entry i, with this effect *)
| Said (q : req) (a : say).                     (* a replica answers a request *)
Definition gstate := (core * list entry)%type.  (* a replica, and its full log *)
Record group := Grp {
  g_now : list (bytes * gstate);                 (* the replicas as they are *)
  g_past : list (bytes * gstate);                (* every state any replica was ever in *)
  g_soup : list (bytes * (option bytes * rmsg)); (* every raft message ever sent *)
  g_fwd : list (bytes * (N * inner));            (* every forwarded request: from, its number there, contents *)
  g_ans : list (bytes * (N * fanswer));          (* every answer to one: to, the number there, the answer *)
  g_seen : list (bytes * seen);                  (* what was seen where, in the order of time *)
  g_rolled : pset                                (* the replicas that were ever put back *)
}.

Inductive gevent :=
| GCall (k : bytes) (o : cop)                                (* a request, a tick, a turn of the apply loop ... *)
| GDeliver (k : bytes) (j : nat) (ok1 ok2 : bool) (rnd : Z)  (* k receives raft message number j *)
| GServe (k : bytes) (j : nat) (attested ok : bool) (rnd : Z) (* k receives forwarded request number j *)
| GAnswer (k : bytes) (j : nat)                              (* k receives answer number j *)
| GChange (k : bytes) (attested ok : bool) (rnd : Z) (gr : rgroup) (* a peer asks k to change the membership *)
| GRollback (k : bytes) (j : nat).                           (* k is put back to past state number j *)

(* the raft call made in a step of CoreTx.v (write, take, cstep) *)
Definition raft_call (s : core) (o : cop) : option rop :=
  match o with
  | CWrite _ by_ x ok rnd _ =>
      if (match by_ with AClient c => existsb (N.eqb c) (c_open D s) | AHost => true end && c_part D s && is_leader (c_node s)
          && negb (psize (m_voting (mship (c_node s))) <? min_voting))%bool
      then Some (ORequest ok rnd x) else None
  | CRaft OTake => None
  | CRaft o => Some o
  | CTake _ => Some OTake
  | _ => None
  end.
(* core.cc:1584-1607: what raft wants sent is sent *)
Definition mail (n : node) (call : option rop) : list (option bytes * rmsg) :=
  match call with
  | Some o => match rstep sz hmac n o with Ret (_, a) => a_sent a | Crash => [] end
  | None => []
  end.
(* the full log after a step *)
Definition log_after (A : list entry) (call : option rop) (s' : core) : list entry :=
  match call with Some _ => regrow A (n_log (c_node s')) | None => A end.
(* what the database makes of an entry (core.cc:1799-1812) *)
Definition effect (db : D) (e : entry) : option E :=
  match e_inner e with IData d => snd (apply db d) | _ => None end.
Definition seen_in (s : core) (o : cop) (r : cres) : list seen :=
  match o with CWrite tx by_ x _ _ _ => [Asked (Req (c_count D s + 1) tx by_) x] | _ => [] end
  ++ match r_taken r with Some (i, e) => [Took i e (effect (c_db D s) e)] | None => [] end
  ++ map (fun qa => Said (fst qa) (snd qa)) (r_said r).
(* core.cc:1694-1718: a request that is now waiting to be answered by the leader is sent to it *)
Definition forwarded (s : core) (o : cop) (s' : core) : list (N * inner) :=
  match o with
  | CWrite _ _ x _ _ _ => if Nat.ltb (length (c_fwd D s)) (length (c_fwd D s')) then [(c_count D s + 1, x)] else []
  | _ => []
  end.
Definition move (k : bytes) (s' : core) (A' : list entry) (msgs : list (option bytes * rmsg))
    (fwd : list (N * inner)) (ans : list (bytes * (N * fanswer))) (sn : list seen) (g : group) : group :=
  Grp (put k (s', A') (g_now g)) (g_past g ++ [(k, (s', A'))]) (g_soup g ++ map (pair k) msgs)
      (g_fwd g ++ map (pair k) fwd) (g_ans g ++ ans) (g_seen g ++ map (pair k) sn) (g_rolled g).
Definition run_core (k : bytes) (o : cop) (g : group) : group :=
  match lookup k (g_now g) with
  | Some (s, A) =>
      match cstep s o with
      | Ret (s', r) =>
          let call := raft_call s o in
          move k s' (log_after A call s') (mail (c_node s) call) (forwarded s o s') [] (seen_in s o r) g
      | Crash => g
      end
  | None => g
  end.
(* core.cc:1506-1527 HandleRaftWrite; attested: peers_attested_with_raft_quorum_timestamp_.
   The request is taken to parse: it was serialized by a replica. *)
Definition serve (attested ok : bool) (rnd : Z) (x : inner) (s : core) : N + rop :=
  if negb (c_part D s) then inl E_RaftState
  else if psize (m_voting (mship (c_node s))) <? min_voting then inl E_NotEnoughVoting
  else if negb attested then inl E_NoQuorumTimestamp
  else inr (ORequest ok rnd x).
Definition run_serve (k : bytes) (attested ok : bool) (rnd : Z) (from : bytes) (no : N) (x : inner) (g : group) : group :=
  match lookup k (g_now g) with
  | Some (s, A) =>
      match serve attested ok rnd x s with
      | inl code => move k s A [] [] [(from, (no, FError code))] [] g
      | inr o =>
          match rstep sz hmac (c_node s) o with
          | Ret (n', a) =>
              let s' := set_node D n' s in
              move k s' (regrow A (n_log n')) (a_sent a) []
                [(from, (no, match a_loc a with Some (l, RE_OK) => FLocated l | Some (_, er) => FError (rerr_code er) | None => FError 0 end))] [] g
          | Crash => g
          end
      end
  | None => g
  end.

(* core.cc:1447-1471 HandleRequestRaftMembership, 1473-1504 HandleRequestRaftVoting, 1540-1577
   HandlePeerRequestedRaftRemoval, which does not ask for attested: to join, to vote, to leave.
   Simplified: gr is any membership, where the code makes it of the current one and the
   peer that asks; the answer to the peer is left out. *)
Definition run_change (k : bytes) (attested ok : bool) (rnd : Z) (gr : rgroup) (g : group) : group :=
  match lookup k (g_now g) with
  | Some (s, A) =>
      if (c_part D s && attested)%bool then
        match rstep sz hmac (c_node s) (ORequest ok rnd (IMember gr)) with
        | Ret (n', a) => move k (set_node D n' s) (regrow A (n_log n')) (a_sent a) [] [] [] g
        | Crash => g
        end
      else g
  | None => g
  end.

Definition gstep (g : group) (ev : gevent) : group :=
  match ev with
  (* messages come from the network; entries get into raft by requests only; answers
     come from the network, but for the errors of a request that times out or whose
     peer is reset (core.cc:1759-1783, 1956-1965) *)
  | GCall _ (CRaft (OReceive _ _ _ _ _)) | GCall _ (CRaft (ORequest _ _ _)) => g
  | GCall _ (CAnswer _ (FLocated _)) | GCall _ (CAnswer _ FOther) => g
  | GCall k (CAnswer no (FError code)) =>
      if ((code =? E_E2ETimeout) || (code =? E_E2EReset))%bool then run_core k (CAnswer no (FError code)) g else g
  | GCall k o => run_core k o g
  | GDeliver k j ok1 ok2 rnd =>
      match nth_error (g_soup g) j with
      | Some (from, (to, m)) =>
          if match to with Some p => beq p k | None => negb (beq from k) end
          then run_core k (CRaft (OReceive ok1 ok2 rnd from m)) g
          else g
      | None => g
      end
  | GServe k j attested ok rnd =>
      match nth_error (g_fwd g) j with
      | Some (from, (no, x)) => run_serve k attested ok rnd from no x g
      | None => g
      end
  | GAnswer k j =>
      match nth_error (g_ans g) j with
      | Some (to, (no, a)) => if beq to k then run_core k (CAnswer no a) g else g
      | None => g
      end
  | GChange k attested ok rnd gr => run_change k attested ok rnd gr g
  | GRollback k j =>
      match nth_error (g_past g) j with
      | Some (k', x) =>
          if beq k' k then Grp (put k x (g_now g)) (g_past g) (g_soup g) (g_fwd g) (g_ans g) (g_seen g) (pins k (g_rolled g)) else g
      | None => g
      end
  end.
Definition grun (g : group) (evs : list gevent) : group := fold_left gstep evs g.

(* The start: the replicas of RaftNet.v's start, all with the database db0 that the
   committed log L0 led to, no clients and no requests. *)
Definition gstart (gid : N) (M : members) (sm : N) (L0 : list entry) (db0 : D) (xs : list seat) : outcome group :=
  let* p := seated sz hmac gid M sm L0 xs in
  let p' := map (fun kv => (fst kv, (new_core D (fst (snd kv)) db0 true, snd (snd kv)))) p in
  Ret (Grp (fold_right (fun kv m => put (fst kv) (snd kv) m) [] p') p' [] [] [] [] []).
End Group.
