(* Model of how hosts find or create a group of replicas: host/raftmanager/raftmanager.go,
   host/peer/peerdb/peerdb.go and the part of host/service/service.go that uses them.

   Any number of hosts share one Redis.  Each host's calls interleave with those of the
   others in any way; a host may die at any time (a restarted host is a new one: its
   enclave has a new id).  Entries of peers may expire at any time (their TTL); the
   creation key has none.  Redis keeps what it was told.  Not modelled: JSON, the names
   of the keys, sleeping and the limits on time (a host that gives up dies), and what
   the enclave does (C31). *)
From Verif Require Export Base SMap Hist.

(* peerdb.proto PeerEntry, without LastUpdateTs *)
Record pentry := PEntry { pe_addr : bytes; pe_member : bool; pe_leader : bool; pe_join : Z }.
(* where a host is in service.go:83-135 *)
Inductive jphase :=
| JInsert                                   (* 83: Insert *)
| JList (found : list (bytes * pentry))     (* peerdb.go:138: List; what it found so far *)
| JLock                                     (* 157 *)
| JCreate                                   (* raftmanager.go:140 *)
| JJoin (p : bytes)                         (* 143 *)
| JAttest                                   (* 158 *)
| JMember                                   (* 161, then RunRefresher *)
| JDead.
Record jhost := JHost { h_addr : bytes; h_phase : jphase }.
(* what hosts ask their enclaves for, and whether that succeeded *)
Inductive jact := ACreate (ok : bool) | AJoin (p : bytes) (ok : bool).
Record jworld := JWorld {
  j_peers : list (bytes * pentry); j_lock : option bytes;       (* Redis *)
  j_hosts : list (bytes * jhost);
  j_acts : list (bytes * jact) }.                               (* in the order of time *)
Definition jstart : jworld := JWorld [] None [] [].

(* peerdb.go:119-130 betterThan *)
Definition better (e1 e2 : pentry) : bool :=
  if negb (Bool.eqb (pe_leader e1) (pe_leader e2)) then negb (pe_leader e1) else (pe_join e2 <? pe_join e1)%Z.
(* peerdb.go:144-153 *)
Definition candidates (me addr : bytes) (found : list (bytes * pentry)) : list (bytes * pentry) :=
  filter (fun kv => (negb (beq (fst kv) me || beq (pe_addr (snd kv)) addr) && pe_member (snd kv))%bool) found.
(* peerdb.go:165-169: after sort.Slice, the first; sort.Slice is not stable and may put
   any of those first that no other is better than *)
Definition first_choice (p : bytes) (cs : list (bytes * pentry)) : bool :=
  match lookup p cs with
  | Some e => forallb (fun kv => negb (better (snd kv) e)) cs
  | None => false
  end.

(* SetNX is done and answered; done, but the answer is lost; not done *)
Inductive nx := NxAnswered | NxLost | NxFailed.
Inductive jevent :=
| JStart (h addr : bytes)
| JInserted (h : bytes) (stored ok : bool)
| JFind (h k : bytes)
| JListed (h : bytes) (pick : bytes)
| JAgain (h : bytes)
| JSetNX (h : bytes) (r : nx)
| JDone (h : bytes) (ok : bool)
| JMark (h : bytes) (leader : bool) (now : Z)
| JExpire (k : bytes)
| JDie (h : bytes).

Definition set_phase (h : bytes) (x : jhost) (p : jphase) (w : jworld) : jworld :=
  JWorld (j_peers w) (j_lock w) (put h (JHost (h_addr x) p) (j_hosts w)) (j_acts w).
Definition write_peer (h : bytes) (e : pentry) (w : jworld) : jworld :=
  JWorld (put h e (j_peers w)) (j_lock w) (j_hosts w) (j_acts w).
Definition act_of (h : bytes) (a : jact) (w : jworld) : jworld :=
  JWorld (j_peers w) (j_lock w) (j_hosts w) (j_acts w ++ [(h, a)]).
Definition on_host (h : bytes) (w : jworld) (f : jhost -> jworld) : jworld :=
  match lookup h (j_hosts w) with Some x => f x | None => w end.

Definition jstep (w : jworld) (ev : jevent) : jworld :=
  match ev with
  (* a new enclave has an id that nobody had before *)
  | JStart h addr =>
      match lookup h (j_hosts w) with
      | Some _ => w
      | None => JWorld (j_peers w) (j_lock w) (put h (JHost addr JInsert) (j_hosts w)) (j_acts w)
      end
  (* peerdb.go:98-117 insert: repeated until it succeeds *)
  | JInserted h stored ok => on_host h w (fun x =>
      match h_phase x with
      | JInsert =>
          let w1 := if stored then write_peer h (PEntry (h_addr x) false false 0%Z) w else w in
          if (ok && stored)%bool then set_phase h x (JList []) w1 else w1
      | _ => w
      end)
  (* peerdb.go:189-232 List finds an entry: Keys on a shard of Redis and later Get.  Here each
     entry may be found or not, at any time; a Get that finds nothing is skipped *)
  | JFind h k => on_host h w (fun x =>
      match h_phase x, lookup k (j_peers w) with
      | JList found, Some e => set_phase h x (JList (put k e found)) w
      | _, _ => w
      end)
  (* peerdb.go:155-169 *)
  | JListed h pick => on_host h w (fun x =>
      match h_phase x with
      | JList found =>
          match candidates h (h_addr x) found with
          | [] => set_phase h x JLock w
          | cs => if first_choice pick cs then set_phase h x (JJoin pick) w else w
          end
      | _ => w
      end)
  (* an error in List: util.go:45-58 tries again *)
  | JAgain h => on_host h w (fun x =>
      match h_phase x with JList _ => set_phase h x (JList []) w | _ => w end)
  (* peerdb.go:177-186 acquireCreationLock *)
  | JSetNX h r => on_host h w (fun x =>
      match h_phase x with
      | JLock =>
          match r with
          | NxFailed => set_phase h x (JList []) w
          | _ =>
              match j_lock w with
              | Some _ => set_phase h x (JList []) w
              | None =>
                  let w1 := JWorld (j_peers w) (Some h) (j_hosts w) (j_acts w) in
                  match r with NxAnswered => set_phase h x JCreate w1 | _ => set_phase h x (JList []) w1 end
              end
          end
      | _ => w
      end)
  (* raftmanager.go:137-162: the enclave answers *)
  | JDone h ok => on_host h w (fun x =>
      match h_phase x with
      | JCreate => act_of h (ACreate ok) (set_phase h x (if ok then JAttest else JDead) w)
      | JJoin p => act_of h (AJoin p ok) (set_phase h x (if ok then JAttest else JDead) w)
      | JAttest => set_phase h x (if ok then JMember else JDead) w
      | _ => w
      end)
  (* raftmanager.go:62-90 RunRefresher, service.go:133, peerdb.go:94 *)
  | JMark h leader now => on_host h w (fun x =>
      match h_phase x with
      | JMember => write_peer h (PEntry (h_addr x) true leader now) w
      | _ => w
      end)
  | JExpire k => JWorld (del k (j_peers w)) (j_lock w) (j_hosts w) (j_acts w)
  | JDie h => on_host h w (fun x => set_phase h x JDead w)
  end.
Definition jrun (w : jworld) (evs : list jevent) : jworld := fold_left jstep evs w.
