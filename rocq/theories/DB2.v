(* Model of enclave/db/db2.{h,cc}: the SVR2 PIN-protected key/value store. *)
From Verif Require Export DBCommon.

(* db2.h:65-70 size constants *)
Definition BACKUP_ID_SIZE : nat := 16.
Definition PIN_SIZE : nat := 32.
Definition MIN_DATA_SIZE : nat := 16.
Definition MAX_DATA_SIZE : nat := 48.
Definition MIN_TRIES : N := 1.
Definition MAX_TRIES : N := 255.

(* e2e.proto DB2RowState.State; a proto3 enum is open, so any uint32 value can
   arrive over the wire: the state is a number, these are the named ones. *)
Definition UNINITIATED : N := 0.
Definition POPULATED : N := 1.
Definition AVAILABLE : N := 2.

(* db2.h struct Row (96-108).  The Merkle leaf is modelled in Merkle.v and tied
   to rows in DB2Merkle.v; here the answer of Leaf::Verify is an input. *)
Record row2 := Row2 {
  r_state : N;
  r_tries : N;        (* uint8_t *)
  r_dsize : N;        (* uint8_t *)
  r_data : bytes;     (* std::array<uint8_t, 48> *)
  r_pin : bytes       (* std::array<uint8_t, 32> *)
}.
Definition db2 := smap row2.

(* client.proto Request, clientlog.proto Log2 *)
Inductive req2 :=
| Backup (data pin : bytes) (max_tries : N)
| Restore (pin : bytes)
| Expose (data : bytes)
| Delete
| Tries
| ReqUnset.
Record log2 := Log2 { l_id : bytes; l_req : req2 }.

(* client.proto Response; absent proto fields are "" / 0 / false *)
Inductive rstatus := RS_OK | RS_MISSING | RS_PIN_MISMATCH | RS_ERROR.
Inductive resp2 :=
| RspBackup                                   (* status = OK, the only one *)
| RspRestore (s : rstatus) (data : bytes) (tries : N)
| RspDelete
| RspExpose (ok : bool)                       (* OK / ERROR *)
| RspTries (ok : bool) (tries : N) (exposed : bool)  (* OK / MISSING *)
| RspNone.

(* db2.cc:70-102 ValidateClientLog *)
Definition validate2 (l : log2) : dberr :=
  if negb (Nat.eqb (length (l_id l)) BACKUP_ID_SIZE) then E_BackupIDSize else
  match l_req l with
  | Backup data pin mt =>
      if negb (Nat.eqb (length pin) PIN_SIZE) then E_PinSize else
      if Nat.ltb MAX_DATA_SIZE (length data) then E_DataSize else
      if Nat.ltb (length data) MIN_DATA_SIZE then E_DataSize else
      if MAX_TRIES <? mt then E_TriesTooHigh else
      if mt <? MIN_TRIES then E_TriesZero else E_OK
  | Restore pin =>
      if negb (Nat.eqb (length pin) PIN_SIZE) then E_PinSize else E_OK
  | Expose data =>
      if Nat.ltb MAX_DATA_SIZE (length data) then E_DataSize else
      if Nat.ltb (length data) MIN_DATA_SIZE then E_DataSize else E_OK
  | Tries | Delete => E_OK
  | ReqUnset => E_RequestCase
  end.

(* db2.cc:151-157 Row::Clear *)
Definition clear2 (s : N) : row2 :=
  Row2 s 0 0 (zeros MAX_DATA_SIZE) (zeros PIN_SIZE).

(* db2.cc:159-178 Backup.  uint8_t conversions are explicit. *)
Definition backup2 (db : db2) (id data pin : bytes) (mt : N) : outcome (db2 * resp2) :=
  let row := clear2 POPULATED in
  match copy_into (r_data row) data, copy_into (r_pin row) pin with
  | Ret d, Ret p =>
      Ret (put id (Row2 POPULATED (mt mod 256) (blen data mod 256) d p) db, RspBackup)
  | _, _ => Crash
  end.

(* db2.cc:180-215 Restore.  [vok] is the answer of merkle_leaf_.Verify. *)
Definition restore2 (vok : bool) (db : db2) (id pin : bytes) : outcome (db2 * resp2) :=
  match lookup id db with
  | None => Ret (db, RspRestore RS_MISSING [] 0)
  | Some row =>
      if negb (r_state row =? AVAILABLE) then Ret (db, RspRestore RS_MISSING [] 0) else
      if negb vok then Ret (db, RspRestore RS_ERROR [] 0) else
      match ct_equals pin (r_pin row) with
      | Crash => Crash
      | Ret true =>
          (* std::string(data.begin(), data.begin()+data_size): UB if larger *)
          if Nat.ltb (length (r_data row)) (N.to_nat (r_dsize row)) then Crash else
          Ret (db, RspRestore RS_OK (firstn (N.to_nat (r_dsize row)) (r_data row)) (r_tries row))
      | Ret false =>
          let t := (r_tries row + 255) mod 256 in      (* --row->tries, uint8_t *)
          if t =? 0 then Ret (del id db, RspRestore RS_MISSING [] 0)
          else Ret (put id (Row2 (r_state row) t (r_dsize row) (r_data row) (r_pin row)) db,
                    RspRestore RS_PIN_MISMATCH [] t)
      end
  end.

(* db2.cc:217-225 Delete *)
Definition delete2 (db : db2) (id : bytes) : outcome (db2 * resp2) :=
  match lookup id db with
  | None => Ret (db, RspDelete)
  | Some _ => Ret (del id db, RspDelete)
  end.

(* db2.cc:227-273 Expose *)
Definition expose2 (vok : bool) (db : db2) (id data : bytes) : outcome (db2 * resp2) :=
  match lookup id db with
  | None => Ret (db, RspExpose false)
  | Some row =>
      if negb vok then Ret (db, RspExpose false) else
      match ct_equals_prefix (r_data row) data (N.to_nat (r_dsize row)) with
      | Crash => Crash
      | Ret false => Ret (db, RspExpose false)
      | Ret true =>
          if ((r_state row =? POPULATED) || (r_state row =? AVAILABLE))%bool
          then Ret (put id (Row2 AVAILABLE (r_tries row) (r_dsize row) (r_data row) (r_pin row)) db,
                    RspExpose true)
          else Ret (db, RspExpose false)
      end
  end.

(* db2.cc:275-285 Tries *)
Definition tries2 (db : db2) (id : bytes) : outcome (db2 * resp2) :=
  match lookup id db with
  | None => Ret (db, RspTries false 0 false)
  | Some row => Ret (db, RspTries true (r_tries row) (r_state row =? AVAILABLE))
  end.

(* db2.cc:112-149 Run; the CHECK at 116 is the Crash branch *)
Definition run2 (db : db2) (vok : bool) (l : log2) : outcome (db2 * resp2) :=
  match validate2 l with
  | E_OK =>
      match l_req l with
      | Backup data pin mt => backup2 db (l_id l) data pin mt
      | Restore pin => restore2 vok db (l_id l) pin
      | Delete => delete2 db (l_id l)
      | Expose data => expose2 vok db (l_id l) data
      | Tries => tries2 db (l_id l)
      | ReqUnset => Ret (db, RspNone)
      end
  | _ => Crash
  end.

(* core.cc:1887-1902 RaftApplyLogToDatabase: an entry that does not validate is
   skipped (nullptr effect), otherwise Run.  An input to the replicated
   database is the log entry together with the Merkle verdict at that time. *)
Record in2 := In2 { i_vok : bool; i_log : log2 }.
Definition apply2 (db : db2) (i : in2) : outcome (db2 * option resp2) :=
  match validate2 (i_log i) with
  | E_OK =>
      match run2 db (i_vok i) (i_log i) with
      | Ret (db', r) => Ret (db', Some r)
      | Crash => Crash
      end
  | _ => Ret (db, None)
  end.
Definition exec2 : db2 -> list in2 -> outcome (db2 * list (option resp2)) := exec apply2.

(* --- replication: RowsAsProtos / LoadRowsFromProtos ---------------------- *)

(* e2e.proto DB2RowState as a parsed message *)
Record prow2 := PRow2 { p_id : bytes; p_tries : N; p_data : bytes; p_pin : bytes; p_state : N }.

(* db2.cc:300-306 one row *)
Definition row_proto2 (id : bytes) (r : row2) : prow2 :=
  let d := r_data r in
  (* CopyArrayToString then resize(data_size): pads with zeros when growing *)
  PRow2 id (r_tries r)
        (firstn (N.to_nat (r_dsize r)) d ++ zeros (N.to_nat (r_dsize r) - length d))
        (r_pin r) (r_state r).

(* e2e.proto:85-96 wire form.  uint32 / enum fields are truncated to 32 bits
   when parsed. *)
Definition ser_row2 (p : prow2) : bytes :=
  ser_msg (opt_bytes 1 (p_id p) ++ opt_var 2 (p_tries p) ++ opt_bytes 3 (p_data p)
           ++ opt_bytes 4 (p_pin p) ++ opt_var 5 (p_state p)).
Definition parse_row2 (s : bytes) : option prow2 :=
  match parse_msg s with
  | None => None
  | Some l => Some (PRow2 (get_bytes 1 l []) (get_var 2 l 0 mod 2 ^ 32) (get_bytes 3 l [])
                          (get_bytes 4 l []) (get_var 5 l 0 mod 2 ^ 32))
  end.

(* db2.cc:30-38 MaxRowSerializedSize *)
Definition max_row_size2 : nat :=
  BACKUP_ID_SIZE + 2 + (MAX_DATA_SIZE + 2) + (PIN_SIZE + 2) + 3.

(* db2.cc:287-314 RowsAsProtos: returned key, error, rows.  SerializeToString
   is taken to succeed. *)
Definition rows_as_protos2 (db : db2) : bytes -> nat -> bytes * dberr * list bytes :=
  dump_rows (fun id r => ser_row2 (row_proto2 id r)) db (fun start => above start db).

(* db2.cc:323-360 loop body of LoadRowsFromProtos *)
Definition load_row2 (db : db2) (s : bytes) : db2 * dberr * bytes :=
  match parse_row2 s with
  | None => (db, E_InvalidRow, [])
  | Some p =>
      if ((MAX_TRIES <? p_tries p) || (p_tries p =? 0)
          || negb (Nat.eqb (length (p_pin p)) PIN_SIZE)
          || Nat.ltb (length (p_data p)) MIN_DATA_SIZE
          || Nat.ltb MAX_DATA_SIZE (length (p_data p)))%bool
      then (db, E_InvalidRow, p_id p) else
      if negb (Nat.eqb (length (p_id p)) BACKUP_ID_SIZE) then (db, E_BackupIDSize, p_id p) else
      let ooo := match last_key db with Some k => ble (p_id p) k | None => false end in
      if ooo then (db, E_OutOfOrder, p_id p) else
      match copy_into (zeros MAX_DATA_SIZE) (p_data p), copy_into (zeros PIN_SIZE) (p_pin p) with
      | Ret d, Ret pin =>
          (put (p_id p) (Row2 (p_state p) (p_tries p mod 256) (blen (p_data p) mod 256) d pin) db,
           E_OK, p_id p)
      | _, _ => (db, E_InvalidRow, p_id p)   (* excluded by the size tests above *)
      end
  end.
(* db2.cc:318-367 LoadRowsFromProtos *)
Definition load_rows2 : db2 -> list bytes -> outcome (db2 * bytes * dberr) :=
  load_rows true (@length _) load_row2.

(* --- hashing ------------------------------------------------------------- *)
(* db2.cc:378-397 HashRow: the bytes fed to SipHash.  memcpy reads data_size
   bytes from a 48-byte array into a 48-byte zeroed field: more is UB. *)
Definition hashrow_bytes2 (id : bytes) (r : row2) : outcome bytes :=
  if Nat.ltb (length (r_data r)) (N.to_nat (r_dsize r)) then Crash else
  Ret (id ++ be32 (r_state r) ++ be32 (r_tries r) ++ be32 (r_dsize r)
       ++ (firstn (N.to_nat (r_dsize r)) (r_data r)
           ++ zeros (MAX_DATA_SIZE - N.to_nat (r_dsize r)))
       ++ r_pin r).

Fixpoint hash_inputs2 (m : db2) : outcome (list bytes) :=
  match m with
  | [] => Ret []
  | (id, r) :: m' =>
      match hashrow_bytes2 id r, hash_inputs2 m' with
      | Ret a, Ret b => Ret (a :: b)
      | _, _ => Crash
      end
  end.
(* db2.cc:399-413 Hash.  [sip16] is sip::FullZero.Hash16, [sha256] is libsodium's
   SHA-256 over the concatenation of its updates. *)
Definition hash2 (sip16 sha256 : bytes -> bytes) (m : db2) : outcome bytes :=
  match hash_inputs2 m with
  | Ret rows => Ret (db_hash sip16 sha256 rows)
  | Crash => Crash
  end.
