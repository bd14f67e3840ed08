(* Model of enclave/db/db3.{h,cc}: the SVR3 oblivious-PRF store. *)
From Verif Require Export DBCommon.

(* db3.h:27-35 size constants *)
Definition ID_SIZE3 : nat := 16.
Definition SCALAR_SIZE : nat := 32.
Definition ELEMENT_SIZE : nat := 32.

(* db3.h struct Row, without the Merkle leaf (see DB2.v) *)
Record row3 := Row3 { r3_priv : bytes; r3_tries : N (* uint8_t *) }.
Definition db3 := smap row3.

(* client3.proto Request3, clientlog.proto Log3 *)
Inductive req3 :=
| Create3 (max_tries : N) (element : bytes)
| Evaluate3 (element : bytes)
| Remove3
| Query3
| Unset3.
Record log3 := Log3 { l3_id : bytes; l3_req : req3; l3_priv : bytes }.

(* client3.proto Response3; absent fields are "" / 0 *)
Inductive st3 := S3_OK | S3_MISSING | S3_INVALID | S3_ERROR.
Inductive resp3 :=
| RspCreate3 (s : st3) (evaluated : bytes)
| RspEvaluate3 (s : st3) (evaluated : bytes) (tries : N)
| RspRemove3
| RspQuery3 (s : st3) (tries : N).

(* db3.cc:32-51 LogFromRequest; [newkey] is the random scalar NewKey draws *)
Definition log_from_request3 (newkey auth_id : bytes) (r : req3) : log3 + dberr :=
  if negb (Nat.eqb (length auth_id) ID_SIZE3) then inr E_BackupIDSize else
  inl (Log3 auth_id r (match r with Create3 _ _ => newkey | _ => [] end)).

(* db3.cc:59-88 ValidateClientLog *)
Definition validate3 (l : log3) : dberr :=
  if negb (Nat.eqb (length (l3_id l)) ID_SIZE3) then E_BackupIDSize else
  match l3_req l with
  | Create3 mt e =>
      if ((mt <? 1) || (255 <? mt))%bool then E_TriesOutOfRange else
      if negb (Nat.eqb (length e) ELEMENT_SIZE) then E_ElementSize else
      if negb (Nat.eqb (length (l3_priv l)) SCALAR_SIZE) then E_KeyInvalid else E_OK
  | Evaluate3 e => if negb (Nat.eqb (length e) ELEMENT_SIZE) then E_ElementSize else E_OK
  | Remove3 | Query3 => E_OK
  | Unset3 => E_RequestCase
  end.

Section DB3.
(* crypto_scalarmult_ristretto255(out, key, element): None when it returns
   nonzero (db3.cc:241-252 BlindEvaluate) *)
Variable smul : bytes -> bytes -> option bytes.

(* util/bytes.h StringToByteArray<n>: only a string of exactly n bytes *)
Definition to_array (n : nat) (s : bytes) : option bytes :=
  if Nat.eqb (length s) n then Some s else None.

(* db3.cc:260-293 Create *)
Definition create3 (db : db3) (id priv : bytes) (mt : N) (e : bytes) : db3 * resp3 :=
  match to_array ELEMENT_SIZE e with
  | None => (db, RspCreate3 S3_INVALID [])
  | Some elt =>
      match to_array SCALAR_SIZE priv with
      | None => (db, RspCreate3 S3_ERROR [])
      | Some k =>
          match smul k elt with
          | None => (db, RspCreate3 S3_ERROR [])
          | Some ev => (put id (Row3 k (mt mod 256)) db, RspCreate3 S3_OK ev)
          end
      end
  end.

(* db3.cc:295-333 Evaluate; [vok] is the answer of merkle_leaf_.Verify *)
Definition evaluate3 (vok : bool) (db : db3) (id e : bytes) : db3 * resp3 :=
  match to_array ELEMENT_SIZE e with
  | None => (db, RspEvaluate3 S3_INVALID [] 0)
  | Some elt =>
      match lookup id db with
      | None => (db, RspEvaluate3 S3_MISSING [] 0)
      | Some row =>
          if negb vok then (db, RspEvaluate3 S3_ERROR [] 0) else
          match smul (r3_priv row) elt with
          | None => (db, RspEvaluate3 S3_ERROR [] 0)
          | Some ev =>
              let t := (r3_tries row + 255) mod 256 in     (* row->tries-- , uint8_t *)
              ((if t =? 0 then del id db else put id (Row3 (r3_priv row) t) db),
               RspEvaluate3 S3_OK ev t)
          end
      end
  end.

(* db3.cc:335-346 Remove *)
Definition remove3 (db : db3) (id : bytes) : db3 * resp3 :=
  match lookup id db with
  | None => (db, RspRemove3)
  | Some _ => (del id db, RspRemove3)
  end.

(* db3.cc:348-361 Query *)
Definition query3 (db : db3) (id : bytes) : db3 * resp3 :=
  match lookup id db with
  | None => (db, RspQuery3 S3_MISSING 0)
  | Some row => (db, RspQuery3 S3_OK (r3_tries row))
  end.

(* db3.cc:106-134 Run; the CHECKs at 108, 113 and 131 are the Crash branches *)
Definition run3 (db : db3) (vok : bool) (l : log3) : outcome (db3 * resp3) :=
  match validate3 l with
  | E_OK =>
      match to_array ID_SIZE3 (l3_id l) with
      | None => Crash
      | Some id =>
          match l3_req l with
          | Create3 mt e => Ret (create3 db id (l3_priv l) mt e)
          | Evaluate3 e => Ret (evaluate3 vok db id e)
          | Remove3 => Ret (remove3 db id)
          | Query3 => Ret (query3 db id)
          | Unset3 => Crash
          end
      end
  | _ => Crash
  end.

(* core.cc:1887-1902 RaftApplyLogToDatabase, as in DB2.v *)
Record in3 := In3 { i3_vok : bool; i3_log : log3 }.
Definition apply3 (db : db3) (i : in3) : outcome (db3 * option resp3) :=
  match validate3 (i3_log i) with
  | E_OK =>
      match run3 db (i3_vok i) (i3_log i) with
      | Ret (db', r) => Ret (db', Some r)
      | Crash => Crash
      end
  | _ => Ret (db, None)
  end.
Definition exec3 : db3 -> list in3 -> outcome (db3 * list (option resp3)) := exec apply3.
End DB3.

(* --- replication --- *)
(* e2e.proto DB3RowState *)
Record prow3 := PRow3 { p3_id : bytes; p3_priv : bytes; p3_tries : N }.
Definition ser_row3 (p : prow3) : bytes :=
  ser_msg (opt_bytes 1 (p3_id p) ++ opt_bytes 2 (p3_priv p) ++ opt_var 3 (p3_tries p)).
Definition parse_row3 (s : bytes) : option prow3 :=
  match parse_msg s with
  | None => None
  | Some l => Some (PRow3 (get_bytes 1 l []) (get_bytes 2 l []) (get_var 3 l 0 mod 2 ^ 32))
  end.
(* db3.cc:149-151 *)
Definition row_proto3 (id : bytes) (r : row3) : prow3 := PRow3 id (r3_priv r) (r3_tries r).
(* db3.cc:98-104 MaxRowSerializedSize *)
Definition max_row_size3 : nat := ID_SIZE3 + 2 + (SCALAR_SIZE + 2) + 2.
(* db3.cc:136-158 RowsAsProtos *)
Definition rows_as_protos3 (db : db3) : bytes -> nat -> bytes * dberr * list bytes :=
  dump_rows (fun id r => ser_row3 (row_proto3 id r)) db (fun start => above start db).
(* db3.cc:164-199 loop body of LoadRowsFromProtos *)
Definition load_row3 (db : db3) (s : bytes) : db3 * dberr * bytes :=
  match parse_row3 s with
  | None => (db, E_InvalidRow, [])
  | Some p =>
      if ((255 <? p3_tries p) || (p3_tries p <? 1))%bool then (db, E_InvalidRow, p3_id p) else
      if negb (Nat.eqb (length (p3_id p)) ID_SIZE3) then (db, E_BackupIDSize, p3_id p) else
      let ooo := match last_key db with Some k => ble (p3_id p) k | None => false end in
      if ooo then (db, E_OutOfOrder, p3_id p) else
      if negb (Nat.eqb (length (p3_priv p)) SCALAR_SIZE) then (db, E_KeyInvalid, p3_id p) else
      (put (p3_id p) (Row3 (p3_priv p) (p3_tries p mod 256)) db, E_OK, p3_id p)
  end.
(* db3.cc:160-206 LoadRowsFromProtos (no CHECK on the number of rows) *)
Definition load_rows3 : db3 -> list bytes -> outcome (db3 * bytes * dberr) :=
  load_rows false (@length _) load_row3.

(* db3.cc:208-223 HashRow: the bytes hashed; its CHECKs hold by array type *)
Definition hashrow_bytes3 (id : bytes) (r : row3) : bytes :=
  id ++ be32 (r3_tries r) ++ r3_priv r.
(* db3.cc:225-239 Hash *)
Definition hash3 (sip16 sha256 : bytes -> bytes) (m : db3) : bytes :=
  db_hash sip16 sha256 (map (fun kv => hashrow_bytes3 (fst kv) (snd kv)) m).
