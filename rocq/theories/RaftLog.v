(* Model of enclave/raft/log.{h,cc} and of the log entries of raft.proto.

   Sizes (size_t) and indexes (uint64_t) are unbounded N: 2^64 bytes or entries
   are out of reach.  curr_bytes_ -= mem is N's subtraction; C29 shows it never
   goes below zero.  Metrics (UpdateMetrics) are left out. *)
From Verif Require Export Base Util Wire.

Definition bind {A B} (x : outcome A) (f : A -> outcome B) : outcome B :=
  match x with Ret a => f a | Crash => Crash end.
Notation "'let*' x ':=' e 'in' k" := (bind e (fun x => k)) (at level 200, x binder, right associativity).
Notation "'let*' ' x ':=' e 'in' k" := (bind e (fun x => k)) (at level 200, x strict pattern, right associativity).

(* --- raft.proto 9-80 ---------------------------------------------------- *)
Record replica := Replica { rp_id : bytes; rp_voting : bool }.
Definition rgroup := list replica.
Inductive inner := INone | IData (d : bytes) | IMember (g : rgroup) | IMins (m : bytes).
Record entry := Entry { e_term : N; e_inner : inner; e_hash : bytes }.

(* SerializeAsString of Replica, ReplicaGroup and LogEntry: fields in order of
   number, proto3 defaults left out, members of a oneof always written *)
Definition ser_replica (r : replica) : bytes :=
  ser_msg (opt_bytes 1 (rp_id r) ++ opt_var 2 (if rp_voting r then 1 else 0)).
Definition group_fields (g : rgroup) : list field := map (fun r => (1, WBytes (ser_replica r))) g.
Definition ser_group (g : rgroup) : bytes := ser_msg (group_fields g).
Definition ser_entry (e : entry) : bytes :=
  ser_msg (opt_var 1 (e_term e)
    ++ match e_inner e with IData d => [(2, WBytes d)] | IMember g => [(3, WBytes (ser_group g))] | _ => [] end
    ++ opt_bytes 4 (e_hash e)
    ++ match e_inner e with IMins m => [(5, WBytes m)] | _ => [] end).
(* LogEntry::ByteSizeLong / GetCachedSize *)
Definition byte_size (e : entry) : N := blen (ser_entry e).

(* sizeof of the C++ objects; any values *)
Record sizes := Sizes { sz_group : N; sz_peer : N; sz_replica : N; sz_string : N; sz_entry : N }.

(* log.cc:14-36 logentry_bytes_in_log *)
Definition mem_size (sz : sizes) (e : entry) : N :=
  match e_inner e with
  | IMember g => sz_group sz + N.of_nat (length g) * (sz_peer sz + sz_replica sz)
  | _ => 0
  end
  + (if blen (e_hash e) =? 0 then 0 else blen (e_hash e) + sz_string sz)
  + sz_entry sz
  + sz_string sz + match e_inner e with IData d => blen d | _ => 0 end.

(* log.h:112-116 *)
Record rlog := RLog { l_entries : list entry; l_oldest : N; l_bytes : N; l_max : N }.

(* log.cc:38-41 Log *)
Definition empty_log (max : N) : rlog := RLog [] 1 0 max.

Inductive lerr := L_OK | L_CancelingBeforeFirst | L_AppendWithoutTerm | L_NoHashChain
  | L_OutOfSpace | L_EntryTooLarge | L_SetNextOnNonempty.

(* log.cc:43-50 CancelFrom: entries_.resize(index).  curr_bytes_ stays as it
   was.  Resizing beyond the end would add empty entries: pad. *)
Definition default_entry : entry := Entry 0 INone [].
Definition resize (n : nat) (l : list entry) : list entry :=
  firstn n l ++ repeat default_entry (n - length l).
Definition cancel_from (idx : N) (l : rlog) : rlog * lerr :=
  if idx <? l_oldest l then (l, L_CancelingBeforeFirst)
  else (RLog (resize (N.to_nat (idx - l_oldest l)) (l_entries l)) (l_oldest l) (l_bytes l) (l_max l), L_OK).

(* log.cc:52-74 At, Valid, Entry, Term: None is an invalid iterator *)
Definition at_idx (l : rlog) (idx : N) : option entry :=
  if idx <? l_oldest l then None else nth_error (l_entries l) (N.to_nat (idx - l_oldest l)).
Definition term_at (l : rlog) (idx : N) : N := match at_idx l idx with Some e => e_term e | None => 0 end.
(* log.cc:76-84 SerializedSize *)
Definition ser_size_at (l : rlog) (idx : N) : N := match at_idx l idx with Some e => byte_size e | None => 0 end.

(* log.cc:99-112 *)
Definition oldest_idx (l : rlog) : N := match l_entries l with [] => 0 | _ => l_oldest l end.
Definition last_idx (l : rlog) : N :=
  match l_entries l with [] => 0 | es => l_oldest l + N.of_nat (length es) - 1 end.
Definition last_term (l : rlog) : N := match l_entries l with [] => 0 | _ => term_at l (last_idx l) end.
Definition next_idx (l : rlog) : N := last_idx l + 1.                  (* log.h:66 *)

(* log.cc:122-126 with 143-150 RemoveOldestLogOlderThan: drop entries from the
   front until need more bytes fit.  front() of an empty deque is undefined. *)
Fixpoint make_room (sz : sizes) (need truncate_to max : N) (es : list entry) (oldest bytes : N)
  : outcome (bool * (list entry * N * N)) :=
  if bytes + need <=? max then Ret (true, (es, oldest, bytes))
  else if truncate_to <=? oldest then Ret (false, (es, oldest, bytes))
  else match es with
       | [] => Crash
       | e :: es' => make_room sz need truncate_to max es' (oldest + 1) (bytes - mem_size sz e)
       end.

Definition INT_MAX : N := 2 ^ 31 - 1.

(* log.cc:114-141 Append *)
Definition append (sz : sizes) (e : entry) (truncate_to : N) (l : rlog) : outcome (rlog * lerr) :=
  if e_term e =? 0 then Ret (l, L_AppendWithoutTerm)
  else if negb (blen (e_hash e) =? 32) then Ret (l, L_NoHashChain)
  else
    let mem := mem_size sz e in
    let* '(ok, (es, oldest, bytes)) := make_room sz mem truncate_to (l_max l) (l_entries l) (l_oldest l) (l_bytes l) in
    if negb ok then Ret (RLog es oldest bytes (l_max l), L_OutOfSpace)
    else if INT_MAX <? byte_size e then Ret (RLog es oldest bytes (l_max l), L_EntryTooLarge)
    else Ret (RLog (es ++ [e]) oldest (bytes + mem) (l_max l), L_OK).

(* log.cc:160-168 MostRecentHash into an array of zeroes *)
Definition recent_hash (l : rlog) : bytes :=
  match find (fun e => Nat.eqb (length (e_hash e)) 32) (rev (l_entries l)) with
  | Some e => e_hash e
  | None => zeros 32
  end.

(* log.cc:170-176 SetNextIdx *)
Definition set_next_idx (idx : N) (l : rlog) : rlog * lerr :=
  match l_entries l with
  | [] => (RLog [] idx (l_bytes l) (l_max l), L_OK)
  | _ => (l, L_SetNextOnNonempty)
  end.
