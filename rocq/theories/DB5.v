(* Model of enclave/db/db5.{h,cc}: the keyed-HMAC store. *)
From Verif Require Export DBCommon.

(* db5.h:65-67 *)
Definition ID_SIZE5 : nat := 16.
Definition DATA_SIZE5 : nat := 32.
Definition PASSWORD_SIZE5 : nat := 32.

(* db5.h:93-99 struct Row, without the Merkle leaf (see DB2.v): its data *)
Definition db5 := smap bytes.

(* client5.proto Request5, clientlog.proto Log5 *)
Inductive req5 := Upload5 (data : bytes) | Download5 (password : bytes) | Purge5 | Unset5.
Record log5 := Log5 { l5_id : bytes; l5_req : req5 }.

(* client5.proto Response5 *)
Inductive st5 := S5_OK | S5_MISSING | S5_MERKLE_FAILURE.
Inductive resp5 := RspUpload5 (s : st5) | RspDownload5 (s : st5) (output : bytes) | RspPurge5 | RspEmpty5.

(* db5.cc:46-60 LogFromRequest *)
Definition log_from_request5 (auth_id : bytes) (r : req5) : log5 + dberr :=
  if negb (Nat.eqb (length auth_id) ID_SIZE5) then inr E_BackupIDSize else inl (Log5 auth_id r).

(* db5.cc:68-91 ValidateClientLog *)
Definition validate5 (l : log5) : dberr :=
  if negb (Nat.eqb (length (l5_id l)) ID_SIZE5) then E_BackupIDSize else
  match l5_req l with
  | Upload5 d => if negb (Nat.eqb (length d) DATA_SIZE5) then E_DataSize else E_OK
  | Download5 p => if negb (Nat.eqb (length p) PASSWORD_SIZE5) then E_PasswordSize else E_OK
  | Purge5 => E_OK
  | Unset5 => E_RequestCase
  end.

Section DB5.
(* hmac::HmacSha256(key, input) *)
Variable hmac : bytes -> bytes -> bytes.

(* db5.cc:132-146 Upload: std::copy of the whole request into the 32-byte
   array of the (possibly new, zeroed) row; copying more is undefined *)
Definition upload5 (db : db5) (id d : bytes) : outcome (db5 * resp5) :=
  let old := match lookup id db with Some x => x | None => zeros DATA_SIZE5 end in
  match copy_into old d with
  | Crash => Crash
  | Ret x => Ret (put id x db, RspUpload5 S5_OK)
  end.
(* db5.cc:148-164 Download; [vok] is the answer of merkle_leaf_.Verify *)
Definition download5 (vok : bool) (db : db5) (id p : bytes) : db5 * resp5 :=
  match lookup id db with
  | None => (db, RspDownload5 S5_MISSING [])
  | Some d => if negb vok then (db, RspDownload5 S5_MERKLE_FAILURE [])
              else (db, RspDownload5 S5_OK (hmac d p))
  end.
(* db5.cc:166-171 Purge *)
Definition purge5 (db : db5) (id : bytes) : db5 * resp5 :=
  match lookup id db with None => (db, RspPurge5) | Some _ => (del id db, RspPurge5) end.

(* db5.cc:101-130 Run; the CHECKs at 105 and 108 are the Crash branches *)
Definition run5 (db : db5) (vok : bool) (l : log5) : outcome (db5 * resp5) :=
  match validate5 l with
  | E_OK =>
      if negb (Nat.eqb (length (l5_id l)) ID_SIZE5) then Crash else
      match l5_req l with
      | Upload5 d => upload5 db (l5_id l) d
      | Download5 p => Ret (download5 vok db (l5_id l) p)
      | Purge5 => Ret (purge5 db (l5_id l))
      | Unset5 => Ret (db, RspEmpty5)
      end
  | _ => Crash
  end.

(* core.cc:1887-1902 RaftApplyLogToDatabase, as in DB2.v *)
Record in5 := In5 { i5_vok : bool; i5_log : log5 }.
Definition apply5 (db : db5) (i : in5) : outcome (db5 * option resp5) :=
  match validate5 (i5_log i) with
  | E_OK =>
      match run5 db (i5_vok i) (i5_log i) with
      | Ret (db', r) => Ret (db', Some r)
      | Crash => Crash
      end
  | _ => Ret (db, None)
  end.
Definition exec5 : db5 -> list in5 -> outcome (db5 * list (option resp5)) := exec apply5.
End DB5.

(* --- replication --- *)
(* e2e.proto DB5RowState *)
Record prow5 := PRow5 { p5_id : bytes; p5_data : bytes }.
Definition ser_row5 (p : prow5) : bytes := ser_msg (opt_bytes 1 (p5_id p) ++ opt_bytes 2 (p5_data p)).
Definition parse_row5 (s : bytes) : option prow5 :=
  match parse_msg s with
  | None => None
  | Some l => Some (PRow5 (get_bytes 1 l []) (get_bytes 2 l []))
  end.
(* db5.cc:31-36 MaxRowSerializedSize *)
Definition max_row_size5 : nat := ID_SIZE5 + 2 + (DATA_SIZE5 + 2).
(* db5.cc:173-198 RowsAsProtos *)
Definition rows_as_protos5 (db : db5) : bytes -> nat -> bytes * dberr * list bytes :=
  dump_rows (fun id d => ser_row5 (PRow5 id d)) db (fun start => above start db).
(* db5.cc:221-248 loop body of LoadRowsFromProtos *)
Definition load_row5 (db : db5) (s : bytes) : db5 * dberr * bytes :=
  match parse_row5 s with
  | None => (db, E_InvalidRow, [])
  | Some p =>
      if negb (Nat.eqb (length (p5_data p)) DATA_SIZE5) then (db, E_InvalidRow, p5_id p) else
      if negb (Nat.eqb (length (p5_id p)) ID_SIZE5) then (db, E_BackupIDSize, p5_id p) else
      let ooo := match last_key db with Some k => ble (p5_id p) k | None => false end in
      if ooo then (db, E_OutOfOrder, p5_id p) else
      (put (p5_id p) (p5_data p) db, E_OK, p5_id p)
  end.
(* db5.cc:216-257 LoadRowsFromProtos *)
Definition load_rows5 : db5 -> list bytes -> outcome (db5 * bytes * dberr) :=
  load_rows true (@length _) load_row5.
(* db5.cc:268-279 HashRow: the bytes hashed *)
Definition hashrow_bytes5 (id d : bytes) : bytes := id ++ d.
(* db5.cc:281-296 Hash *)
Definition hash5 (sip16 sha256 : bytes -> bytes) (m : db5) : bytes :=
  db_hash sip16 sha256 (map (fun kv => hashrow_bytes5 (fst kv) (snd kv)) m).
