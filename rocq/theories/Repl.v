(* Model of the state transfer to a joining replica (enclave/core/core.cc:1234-1445,
   579-618 and 649-669): the source, a member of the group that goes on applying
   committed log entries; the destination, which loads log entries and rows; and the
   messages between them.

   One transfer is modelled, with its id.  The destination asks once (598-616), and the
   source answers once.  Limits (minimum_limits) that travel with each message are those
   of Minimums.v and left out; the membership travels as its list of replicas.  The
   memory of both is intact, so that no integrity check fails. *)
From Verif Require Export Base Hist RaftLog DBCommon.

(* A database protocol and its database (db/db.h:117-184), without the answers to
   clients.  [db_parse] is LogPB()->ParseFromString, [db_valid] is
   ValidateClientLog == OK. *)
Record dbi := DBI {
  db_state : Type; db_log : Type;
  db_new : db_state;
  db_parse : bytes -> option db_log;
  db_key : db_log -> bytes;
  db_valid : db_log -> bool;
  db_run : db_state -> db_log -> outcome db_state;
  db_dump : db_state -> bytes -> nat -> bytes * dberr * list bytes;
  db_load : db_state -> list bytes -> outcome (db_state * bytes * dberr);
  db_max_row : nat }.

(* e2e::ReplicateStatePush *)
Record push := Push { p_tid : N; p_seq : N; p_first : N; p_entries : list entry; p_rows : list bytes; p_end : bool; p_mem : rgroup }.

(* core.h:77-96 ReplicationPushState; [ps_replied]: the answer to the request *)
Record pst := Pst { ps_from : N; ps_key : bytes; ps_fin : bool; ps_seq : N; ps_replied : option bool }.

Section Repl.
Variable D : dbi.
Variable sz : sizes.
Variable tid : N.            (* the transfer's random id *)
Variable chunk : N.          (* replication_chunk_bytes *)
Variable pipeline : nat.     (* replication_pipeline *)
Variable msg_size : push -> N.   (* ByteSizeLong of a message *)

(* The source: its log up to db_last_applied_log (what follows is never read by the
   loop at 1276-1289), its database, and the committed membership. *)
Record src := Src { s_log : rlog; s_db : db_state D; s_mem : rgroup }.

(* 1785-1823 and 1887-1902: a committed entry is applied *)
Definition apply_entry (e : entry) (db : db_state D) : outcome (db_state D) :=
  match e_inner e with
  | IData d =>
      match db_parse D d with
      | None => Ret db
      | Some l => if db_valid D l then db_run D db l else Ret db
      end
  | _ => Ret db
  end.
Definition s_write (e : entry) (s : src) : outcome src :=
  let* db := apply_entry e (s_db s) in
  let l := s_log s in
  Ret (Src (RLog (l_entries l ++ [e]) (l_oldest l) (l_bytes l) (l_max l)) db
           (match e_inner e with IMember g => g | _ => s_mem s end)).
(* log.cc:143-150 with raft.cc:206: the oldest entry goes when room is needed, up to the
   last one applied *)
Definition s_truncate (s : src) : src :=
  let l := s_log s in
  if last_idx l <=? l_oldest l then s
  else Src (RLog (tl (l_entries l)) (l_oldest l + 1) (l_bytes l) (l_max l)) (s_db s) (s_mem s).

(* 1276-1289: entries from an index on; [true]: up to the last one applied *)
Definition from_idx (l : rlog) (idx : N) : list entry :=
  if idx <? l_oldest l then [] else skipn (N.to_nat (idx - l_oldest l)) (l_entries l).
Fixpoint chunk_entries (size : N) (es : list entry) : list entry * bool :=
  match es with
  | [] => ([], true)
  | e :: es' =>
      let size' := size + byte_size e + 1 in
      if chunk <=? size' then ([e], false)
      else let (r, b) := chunk_entries size' es' in (e :: r, b)
  end.

(* 1267-1329 SendNextReplicationState; None: no rows because of an error *)
Definition send_next (s : src) (p : pst) : pst * option push :=
  let (es, at_end) := chunk_entries 0 (from_idx (s_log s) (ps_from p)) in
  let m rows fin := Push tid (ps_seq p) (ps_from p) es rows fin (s_mem s) in
  let now := msg_size (m [] false) in
  let want := N.to_nat ((chunk - now) / N.of_nat (db_max_row D)) in
  let from' := ps_from p + N.of_nat (length es) in
  let seq' := (ps_seq p + 1) mod 2 ^ 64 in
  if (at_end && (now <? chunk) && (0 <? want)%nat)%bool then
    match db_dump D (s_db s) (ps_key p) want with
    | (k, E_OK, rows) =>
        let fin := (length rows <? want)%nat in
        (Pst from' k (ps_fin p || fin) seq' (ps_replied p), Some (m rows fin))
    | _ => (Pst (ps_from p) (ps_key p) (ps_fin p) seq' (match ps_replied p with None => Some false | r => r end), None)
    end
  else (Pst from' (ps_key p) (ps_fin p) seq' (ps_replied p), Some (m [] false)).

(* The destination: core.cc:579-588; [d_big] is lexigraphically_largest_row_loaded_into_db *)
Record dst := Dst { d_log : rlog; d_db : db_state D; d_mem : rgroup; d_big : bytes; d_seq : N; d_loading : bool }.

(* 1426-1445 MaybeApplyLogToReplicatingDatabase; None: an error.  GLOBAL_KEY is "" (db.cc:14) *)
Definition maybe_apply (big : bytes) (e : entry) (db : db_state D) : outcome (option (db_state D)) :=
  match e_inner e, big with
  | IData (x :: d), _ :: _ =>
      match db_parse D (x :: d) with
      | None => Ret None
      | Some l =>
          if (blt big (db_key D l) && negb (beq (db_key D l) []))%bool then Ret (Some db)
          else if db_valid D l then let* db' := db_run D db l in Ret (Some db') else Ret None
      end
  | _, _ => Ret (Some db)
  end.
(* 1403-1409 *)
Fixpoint take_entries (big : bytes) (es : list entry) (l : rlog) (db : db_state D) : outcome (rlog * db_state D * bool) :=
  match es with
  | [] => Ret (l, db, true)
  | e :: es' =>
      let* r := append sz e (last_idx l) l in
      match r with
      | (l', L_OK) =>
          let* r := maybe_apply big e db in
          match r with Some db' => take_entries big es' l' db' | None => Ret (l', db, false) end
      | (l', _) => Ret (l', db, false)
      end
  end.
(* 1350-1423 HandleReplicateStatePush; [true]: no error *)
Definition handle (p : push) (d : dst) : outcome (dst * bool) :=
  if negb (d_loading d) then Ret (d, false)
  else if ((1 <? next_idx (d_log d)) && negb (p_first p =? next_idx (d_log d)))%bool then Ret (d, false)
  else if negb (p_tid p =? tid) then Ret (d, false)
  else
    let seq' := (d_seq d + 1) mod 2 ^ 64 in
    if negb (p_seq p =? d_seq d) then Ret (Dst (d_log d) (d_db d) (d_mem d) (d_big d) seq' true, false)
    else
      let l0 := match l_entries (d_log d) with [] => fst (set_next_idx (p_first p) (d_log d)) | _ => d_log d end in
      let* '(l, db, ok) := take_entries (d_big d) (p_entries p) l0 (d_db d) in
      if negb ok then Ret (Dst l db (p_mem p) (d_big d) seq' true, false)
      else match p_rows p with
           | [] => Ret (Dst l db (p_mem p) (d_big d) seq' true, true)
           | rows =>
               let* r := db_load D db rows in
               match r with
               | (db', last, _) =>
                   if ble last (d_big d) then Ret (Dst l db' (p_mem p) (d_big d) seq' true, false)
                   else Ret (Dst l db' (p_mem p) last seq' true, true)
               end
           end.

(* The transfer.  [w_handled]: the messages the destination has handled, and whether
   without error; [w_closed]: those whose answer (or failure) the source has handled. *)
Record world := World { w_src : src; w_push : option pst; w_sent : list push; w_handled : list (nat * bool); w_closed : list nat;
  w_dst : dst; w_done : bool }.
Inductive rop :=
| SWrite (e : entry)      (* the source applies a committed entry *)
| STruncate               (* its log drops the oldest one *)
| RRequest                (* it handles the request *)
| RHandle (i : nat)       (* the destination handles message i *)
| RForeign (p : push)     (* ... or one from elsewhere *)
| RAnswer (i : nat)       (* the source handles the answer to message i *)
| RFailed (i : nat)       (* ... or its timeout, or the loss of the connection *)
| RFinish.                (* the destination handles the answer to its request *)
(* what is seen: messages sent, with the source's oldest stored index; a message
   handled; an answer handled *)
Record rres := RRes { r_sent : list (N * push); r_handled : option (nat * bool); r_answered : option nat }.
Definition silent := RRes [] None None.

Definition sending (s : src) (p : pst) : pst * list (N * push) :=
  if ps_fin p then (p, []) else
  let (p', q) := send_next s p in
  (p', match q with Some q => [(l_oldest (s_log s), q)] | None => [] end).
(* 1259-1262 *)
Fixpoint send_many (n : nat) (s : src) (p : pst) : pst * list (N * push) :=
  match n with
  | O => (p, [])
  | S n' => let (p1, a) := sending s p in let (p2, b) := send_many n' s p1 in (p2, a ++ b)
  end.
(* 1331-1347: the callback of message [i].  (The test and the setting of sent_response
   are one step here.) *)
Definition set_reply (p : pst) (b : bool) : pst := Pst (ps_from p) (ps_key p) (ps_fin p) (ps_seq p) (Some b).
Definition callback (s : src) (p : pst) (q : push) (ok : bool) : pst * list (N * push) :=
  match ps_replied p with
  | Some _ => (p, [])
  | None =>
      if negb ok then (set_reply p false, [])
      else if p_end q then (set_reply p true, [])
      else sending s p
  end.

Definition has (i : nat) (l : list nat) : bool := existsb (Nat.eqb i) l.
Fixpoint answer (i : nat) (l : list (nat * bool)) : option bool :=
  match l with [] => None | (j, b) :: l' => if (i =? j)%nat then Some b else answer i l' end.

Definition called (i : nat) (ok : bool) (a : option nat) (w : world) : world * rres :=
  match w_push w, nth_error (w_sent w) i with
  | Some p, Some q =>
      if has i (w_closed w) then (w, silent) else
      let (p', out) := callback (w_src w) p q ok in
      (World (w_src w) (Some p') (w_sent w ++ map snd out) (w_handled w) (i :: w_closed w) (w_dst w) (w_done w), RRes out None a)
  | _, _ => (w, silent)
  end.

Definition rstep (w : world) (o : rop) : outcome (world * rres) :=
  match o with
  | SWrite e => let* s := s_write e (w_src w) in
      Ret (World s (w_push w) (w_sent w) (w_handled w) (w_closed w) (w_dst w) (w_done w), silent)
  | STruncate => Ret (World (s_truncate (w_src w)) (w_push w) (w_sent w) (w_handled w) (w_closed w) (w_dst w) (w_done w), silent)
  | RRequest =>   (* 1234-1265 *)
      match w_push w with
      | Some _ => Ret (w, silent)
      | None =>
          let (p, out) := send_many pipeline (w_src w) (Pst (oldest_idx (s_log (w_src w))) [] false 0 None) in
          Ret (World (w_src w) (Some p) (w_sent w ++ map snd out) (w_handled w) (w_closed w) (w_dst w) (w_done w), RRes out None None)
      end
  | RHandle i =>
      match nth_error (w_sent w) i, answer i (w_handled w) with
      | Some q, None =>
          let* '(d, ok) := handle q (w_dst w) in
          Ret (World (w_src w) (w_push w) (w_sent w) ((i, ok) :: w_handled w) (w_closed w) d (w_done w), RRes [] (Some (i, ok)) None)
      | _, _ => Ret (w, silent)
      end
  | RForeign p =>
      let* '(d, _) := handle p (w_dst w) in
      Ret (World (w_src w) (w_push w) (w_sent w) (w_handled w) (w_closed w) d (w_done w), silent)
  | RAnswer i => match answer i (w_handled w) with Some ok => Ret (called i ok (Some i) w) | None => Ret (w, silent) end
  | RFailed i => Ret (called i false None w)
  | RFinish =>    (* 628-669: the database, the log and the membership are now in use *)
      match w_push w with
      | Some p =>
          match ps_replied p with
          | Some true =>
              let d := w_dst w in
              Ret (World (w_src w) (w_push w) (w_sent w) (w_handled w) (w_closed w)
                     (Dst (d_log d) (d_db d) (d_mem d) (d_big d) (d_seq d) false) true, silent)
          | _ => Ret (w, silent)
          end
      | None => Ret (w, silent)
      end
  end.

(* core.cc:579-588 *)
Definition joining (max : N) (mem : rgroup) : dst := Dst (empty_log max) (db_new D) mem [] 0 true.
Definition transfer_start (s : src) (max : N) (mem : rgroup) : world := World s None [] [] [] (joining max mem) false.
End Repl.
