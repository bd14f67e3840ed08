(* Model of enclave/db/db4.{h,cc}: the SVR4 store with key rotation. *)
From Verif Require Export DBCommon.

(* sizes: BackupID 16, ristretto Point and Scalar 32, AESKey 32 (db4.h:24-58) *)
Definition ID_SIZE4 : nat := 16.
Definition KEY_SIZE4 : nat := 32.
Definition MAX_TRIES4 : N := 255.

(* libsodium, as seen through ristretto/ristretto.cc and sha/sha.h.  None is a
   nonzero return code.  Argument order follows the libsodium calls. *)
Record crypto4 := Crypto4 {
  pt_valid : bytes -> bool;                   (* crypto_core_ristretto255_is_valid_point *)
  sc_valid : bytes -> bool;                   (* sc25519_is_canonical *)
  sc_add : bytes -> bytes -> bytes;           (* crypto_core_ristretto255_scalar_add *)
  smul4 : bytes -> bytes -> option bytes;     (* crypto_scalarmult_ristretto255 (scalar, point) *)
  sbase4 : bytes -> option bytes;             (* crypto_scalarmult_ristretto255_base *)
  padd4 : bytes -> bytes -> option bytes;     (* crypto_core_ristretto255_add *)
  from_hash4 : bytes -> option bytes;         (* crypto_core_ristretto255_from_hash *)
  sha512 : bytes -> bytes;                    (* sha::Sha512 of the concatenated arguments *)
  sc_reduce : bytes -> bytes }.               (* crypto_core_ristretto255_scalar_reduce *)

(* db4.h struct Row without the Merkle leaf (see DB2.v), struct RotateRow, maps *)
Record row4 := Row4 { r4_auth : bytes; r4_oprf : bytes; r4_enc : bytes; r4_zero : bytes;
                      r4_version : N (* uint32_t *); r4_tries : N (* uint8_t *) }.
Record rrow4 := RRow4 { rr_version : N; rr_oprf : bytes; rr_enc : bytes }.
Record db4 := DB4 { rows4 : smap row4; rots4 : smap rrow4 }.
Definition empty4 : db4 := DB4 [] [].

(* client4.proto Request4, clientlog.proto Log4 *)
Inductive req4 :=
| Create4 (max_tries : N) (oprf auth enc zero : bytes) (version : N)
| Restore1_4 (blinded : bytes)
| Restore2_4 (auth_point auth_scalar : bytes) (version : N)
| Remove4
| Query4
| RotateStart4 (version : N) (oprf_delta enc_delta : bytes)
| RotateCommit4 (version : N)
| RotateRollback4 (version : N)
| Unset4.
Record log4 := Log4 { l4_id : bytes; l4_req : req4 }.

(* client4.proto Response4 (absent fields are 0, "" or []), clientlog.proto Effect4 *)
Inductive st4 := S4_OK | S4_INVALID | S4_MISSING | S4_ERROR | S4_RESTORE1_MISSING
| S4_VERSION_MISMATCH | S4_NOT_ROTATING | S4_ALREADY_ROTATING | S4_MERKLE_FAILURE | S4_DUPLICATE_VERSION.
Inductive resp4 :=
| RspCreate4 (s : st4) (tries : N)
| RspRestore1_4 (s : st4) (auth : list (bytes * N)) (tries : N)
| RspRestore2_4 (s : st4) (share : bytes)
| RspRemove4
| RspQuery4 (s : st4) (tries version new_version : N)
| RspRotateStart4 (s : st4)
| RspRotateCommit4 (s : st4)
| RspRotateRollback4 (s : st4).
Record r2state := R2State { r2_auth : bytes; r2_enc : bytes; r2_new_enc : bytes;
                            r2_version : N; r2_new_version : N; r2_blinded : bytes }.
Definition eff4 := (resp4 * option r2state)%type.

(* db4.cc:78-105 LogFromRequest *)
Definition log_from_request4 (auth_id : bytes) (r : req4) : log4 + dberr :=
  if negb (Nat.eqb (length auth_id) ID_SIZE4) then inr E_BackupIDSize else
  match r with
  | Restore2_4 _ _ _ | Unset4 => inr E_RequestCase
  | _ => inl (Log4 auth_id r)
  end.

Section DB4.
Variable c : crypto4.

(* ristretto.cc:94-104 Scalar::FromString, Point::FromString *)
Definition sc_from (s : bytes) : option bytes :=
  if negb (Nat.eqb (length s) KEY_SIZE4) then None else if sc_valid c s then Some s else None.
Definition pt_from (s : bytes) : option bytes :=
  if negb (Nat.eqb (length s) KEY_SIZE4) then None else if pt_valid c s then Some s else None.
(* util/bytes.h StringIntoByteArray for an AESKey / BackupID *)
Definition arr_from (n : nat) (s : bytes) : option bytes := if Nat.eqb (length s) n then Some s else None.
Definition bad {A} (o : option A) : bool := match o with None => true | Some _ => false end.

(* db4.cc:177-229 ValidateClientLog *)
Definition validate4 (l : log4) : dberr :=
  if negb (Nat.eqb (length (l4_id l)) ID_SIZE4) then E_BackupIDSize else
  match l4_req l with
  | Create4 mt oprf auth enc zero v =>
      if ((MAX_TRIES4 <? mt) || bad (pt_from auth) || bad (sc_from oprf) || bad (sc_from zero)
          || negb (Nat.eqb (length enc) KEY_SIZE4) || (v =? 0))%bool then E_RequestInvalid else E_OK
  | Restore1_4 b => if bad (pt_from b) then E_RequestInvalid else E_OK
  | Remove4 | Query4 => E_OK
  | RotateStart4 v od ed =>
      if ((v =? 0) || bad (sc_from od) || negb (Nat.eqb (length ed) KEY_SIZE4))%bool
      then E_RequestInvalid else E_OK
  | RotateCommit4 v => if v =? 0 then E_RequestInvalid else E_OK
  | RotateRollback4 v => if v =? 0 then E_RequestInvalid else E_OK
  | Restore2_4 _ _ _ | Unset4 => E_RequestCase
  end.

(* db4.cc:489-521 Create.  The CHECKs at 511-514 are the Crash branch. *)
Definition create4 (db : db4) (id : bytes) (mt : N) (oprf auth enc zero : bytes) (v : N)
  : outcome (db4 * eff4) :=
  match lookup id (rows4 db), mt =? 0 with
  | None, true => Ret (db, (RspCreate4 S4_INVALID 0, None))
  | found, _ =>
      let old := match found with Some r => r4_tries r | None => 0 end in
      let t := if mt =? 0 then old else mt mod 256 in           (* (uint8_t) req.max_tries() *)
      match pt_from auth, sc_from oprf, sc_from zero, arr_from KEY_SIZE4 enc with
      | Some a, Some o, Some z, Some e =>
          Ret (DB4 (put id (Row4 a o e z v t) (rows4 db)) (del id (rots4 db)),
               (RspCreate4 S4_OK t, None))
      | _, _, _, _ => Crash
      end
  end.

(* The evaluation at db4.cc:561-569 and again at 573-583: blinded*key, plus
   hash*zero unless zero is the zero scalar (mask then keeps its initial all
   zero value). *)
Definition blind_eval4 (hash blinded key zero : bytes) : option bytes :=
  match smul4 c key blinded with
  | None => None
  | Some bp =>
      match ct_equals zero (zeros KEY_SIZE4) with
      | Crash => None
      | Ret iszero =>
          match (if iszero then Some (zeros KEY_SIZE4) else smul4 c zero hash) with
          | None => None
          | Some mask => padd4 c mask bp
          end
      end
  end.
(* new_secretshare[i] ^= delta[i] for i < 32 (db4.cc:584-587, 781-783) *)
Fixpoint xor_bytes (a b : bytes) : bytes :=
  match a, b with
  | x :: a', y :: b' => N.lxor x y :: xor_bytes a' b'
  | _, _ => []
  end.

(* db4.cc:523-623 Restore1, and 272-282 of Run (clearing the state unless OK);
   [vok] is the answer of merkle_leaf_.Verify *)
Definition restore1_4 (vok : bool) (db : db4) (id blinded : bytes) : db4 * eff4 :=
  match lookup id (rows4 db) with
  | None => (db, (RspRestore1_4 S4_MISSING [] 0, None))
  | Some row =>
      let rr := lookup id (rots4 db) in
      if negb vok then (db, (RspRestore1_4 S4_MERKLE_FAILURE [] 0, None)) else
      let t := (r4_tries row + 255) mod 256 in
      let row' := Row4 (r4_auth row) (r4_oprf row) (r4_enc row) (r4_zero row) (r4_version row) t in
      let db' := if t =? 0
                 then DB4 (del id (rows4 db)) (match rr with Some _ => del id (rots4 db) | None => rots4 db end)
                 else DB4 (put id row' (rows4 db)) (rots4 db) in
      let error := (RspRestore1_4 S4_ERROR [] t, None) in
      let out :=
        match from_hash4 c (sha512 c (id ++ blinded)) with
        | None => error
        | Some h =>
            match pt_from blinded with
            | None => error
            | Some b =>
                match blind_eval4 h b (r4_oprf row) (r4_zero row) with
                | None => error
                | Some e1 =>
                    match rr with
                    | None =>
                        (RspRestore1_4 S4_OK [(e1, r4_version row)] t,
                         Some (R2State (r4_auth row) (r4_enc row) [] (r4_version row) 0 blinded))
                    | Some r =>
                        match blind_eval4 h b (sc_add c (rr_oprf r) (r4_oprf row)) (r4_zero row) with
                        | None => error
                        | Some e2 =>
                            (RspRestore1_4 S4_OK [(e1, r4_version row); (e2, rr_version r)] t,
                             Some (R2State (r4_auth row) (r4_enc row) (xor_bytes (r4_enc row) (rr_enc r))
                                           (r4_version row) (rr_version r) blinded))
                        end
                    end
                end
            end
        end in
      (db', out)
  end.

(* db4.cc:676-688 Remove *)
Definition remove4 (db : db4) (id : bytes) : db4 * eff4 :=
  match lookup id (rows4 db) with
  | None => (db, (RspRemove4, None))
  | Some _ => (DB4 (del id (rows4 db)) (del id (rots4 db)), (RspRemove4, None))
  end.

(* db4.cc:690-709 Query *)
Definition query4 (db : db4) (id : bytes) : db4 * eff4 :=
  match lookup id (rows4 db) with
  | None => (db, (RspQuery4 S4_MISSING 0 0 0, None))
  | Some row =>
      (db, (RspQuery4 S4_OK (r4_tries row) (r4_version row)
              (match lookup id (rots4 db) with Some r => rr_version r | None => 0 end), None))
  end.

(* db4.cc:711-751 RotateStart; map::emplace does not replace *)
Definition rotate_start4 (vok : bool) (db : db4) (id : bytes) (v : N) (od ed : bytes)
  : outcome (db4 * eff4) :=
  match lookup id (rows4 db) with
  | None => Ret (db, (RspRotateStart4 S4_MISSING, None))
  | Some row =>
      match lookup id (rots4 db) with
      | Some _ => Ret (db, (RspRotateStart4 S4_ALREADY_ROTATING, None))
      | None =>
          if v =? r4_version row then Ret (db, (RspRotateStart4 S4_DUPLICATE_VERSION, None)) else
          match sc_from od, arr_from KEY_SIZE4 ed with
          | Some o, Some e =>
              if negb vok then Ret (db, (RspRotateStart4 S4_MERKLE_FAILURE, None)) else
              Ret (DB4 (rows4 db) (put id (RRow4 v o e) (rots4 db)), (RspRotateStart4 S4_OK, None))
          | _, _ => Crash
          end
      end
  end.

(* db4.cc:753-788 RotateCommit *)
Definition rotate_commit4 (vok : bool) (db : db4) (id : bytes) (v : N) : db4 * eff4 :=
  match lookup id (rows4 db) with
  | None => (db, (RspRotateCommit4 S4_MISSING, None))
  | Some row =>
      match lookup id (rots4 db) with
      | None => (db, (RspRotateCommit4 S4_NOT_ROTATING, None))
      | Some rr =>
          if negb (rr_version rr =? v) then (db, (RspRotateCommit4 S4_VERSION_MISMATCH, None)) else
          if negb vok then (db, (RspRotateCommit4 S4_MERKLE_FAILURE, None)) else
          (DB4 (put id (Row4 (r4_auth row) (sc_add c (rr_oprf rr) (r4_oprf row))
                             (xor_bytes (r4_enc row) (rr_enc rr)) (r4_zero row)
                             (rr_version rr) (r4_tries row)) (rows4 db))
               (del id (rots4 db)),
           (RspRotateCommit4 S4_OK, None))
      end
  end.

(* db4.cc:790-820 RotateRollback *)
Definition rotate_rollback4 (vok : bool) (db : db4) (id : bytes) (v : N) : db4 * eff4 :=
  match lookup id (rows4 db) with
  | None => (db, (RspRotateRollback4 S4_MISSING, None))
  | Some row =>
      match lookup id (rots4 db) with
      | None => (db, (RspRotateRollback4 S4_NOT_ROTATING, None))
      | Some rr =>
          if negb (rr_version rr =? v) then (db, (RspRotateRollback4 S4_VERSION_MISMATCH, None)) else
          if negb vok then (db, (RspRotateRollback4 S4_MERKLE_FAILURE, None)) else
          (DB4 (rows4 db) (del id (rots4 db)), (RspRotateRollback4 S4_OK, None))
      end
  end.

(* db4.cc:258-314 Run; CHECKs at 260, 265 and 311 *)
Definition run4 (db : db4) (vok : bool) (l : log4) : outcome (db4 * eff4) :=
  match validate4 l with
  | E_OK =>
      match arr_from ID_SIZE4 (l4_id l) with
      | None => Crash
      | Some id =>
          match l4_req l with
          | Create4 mt oprf auth enc zero v => create4 db id mt oprf auth enc zero v
          | Restore1_4 b => Ret (restore1_4 vok db id b)
          | Remove4 => Ret (remove4 db id)
          | Query4 => Ret (query4 db id)
          | RotateStart4 v od ed => rotate_start4 vok db id v od ed
          | RotateCommit4 v => Ret (rotate_commit4 vok db id v)
          | RotateRollback4 v => Ret (rotate_rollback4 vok db id v)
          | Restore2_4 _ _ _ | Unset4 => Crash
          end
      end
  | _ => Crash
  end.

(* core.cc:1887-1902 RaftApplyLogToDatabase, as in DB2.v *)
Record in4 := In4 { i4_vok : bool; i4_log : log4 }.
Definition apply4 (db : db4) (i : in4) : outcome (db4 * option eff4) :=
  match validate4 (i4_log i) with
  | E_OK =>
      match run4 db (i4_vok i) (i4_log i) with
      | Ret (db', r) => Ret (db', Some r)
      | Crash => Crash
      end
  | _ => Ret (db, None)
  end.
Definition exec4 : db4 -> list in4 -> outcome (db4 * list (option eff4)) := exec apply4.

(* --- the per-connection half --- *)
(* db4.cc:625-674 ClientState::Restore2; [hh] is the handshake hash *)
Definition restore2_4 (hh auth_point auth_scalar : bytes) (version : N) (st : r2state) : resp4 :=
  let error := RspRestore2_4 S4_ERROR [] in
  match sc_from auth_scalar with
  | None => error
  | Some z =>
      match sbase4 c z with
      | None => error
      | Some lhs1 =>
          let k := sc_reduce c (sha512 c (auth_point ++ r2_blinded st ++ hh)) in
          match pt_from (r2_auth st) with
          | None => error
          | Some ac =>
              match smul4 c k ac with
              | None => error
              | Some rhs1 =>
                  match pt_from auth_point with
                  | None => error
                  | Some ap =>
                      match padd4 c rhs1 ap with
                      | None => error
                      | Some rhs2 =>
                          match ct_equals lhs1 rhs2 with
                          | Ret true =>
                              if version =? r2_version st then RspRestore2_4 S4_OK (r2_enc st)
                              else if version =? r2_new_version st then RspRestore2_4 S4_OK (r2_new_enc st)
                              else error
                          | _ => error
                          end
                      end
                  end
              end
          end
      end
  end.

(* What a connection sees: a request from the client, or the effect of one of
   its committed log entries coming back from the database. *)
Inductive sess4 := SReq4 (r : req4) | SEff4 (e : eff4).
Inductive sans4 := SA_Error (e : dberr)     (* request refused with an error *)
                 | SA_Continue              (* (nullptr, OK): goes on to the log *)
                 | SA_Resp (r : resp4).     (* answered *)
(* db4.cc:107-151 ResponseFromRequest and 153-169 ResponseFromEffect; the state
   is restore2_ *)
Definition sess_step4 (hh auth_id : bytes) (s : option r2state) (e : sess4)
  : option r2state * sans4 :=
  match e with
  | SReq4 (Restore2_4 ap az v) =>
      (None,
       if negb (Nat.eqb (length auth_id) ID_SIZE4) then SA_Error E_BackupIDSize else
       SA_Resp match s with
               | None => RspRestore2_4 S4_RESTORE1_MISSING []
               | Some st =>
                   if (bad (sc_from az) || bad (pt_from ap))%bool then RspRestore2_4 S4_INVALID []
                   else restore2_4 hh ap az v st
               end)
  | SReq4 _ => (None, SA_Continue)
  | SEff4 (resp, st) =>
      (match resp with
       | RspRestore1_4 S4_OK _ _ =>
           Some (match st with Some x => x | None => R2State [] [] [] 0 0 [] end)
       | _ => s
       end, SA_Resp resp)
  end.
Fixpoint sess_run4 (hh auth_id : bytes) (s : option r2state) (es : list sess4)
  : option r2state * list sans4 :=
  match es with
  | [] => (s, [])
  | e :: es' => let (s1, a) := sess_step4 hh auth_id s e in
                let (s2, l) := sess_run4 hh auth_id s1 es' in (s2, a :: l)
  end.

(* --- replication --- *)
(* e2e.proto DB4RowState *)
Record prow4 := PRow4 { p4_id : bytes; p4_tries : N; p4_oprf : bytes; p4_auth : bytes; p4_enc : bytes;
  p4_zero : bytes; p4_doprf : bytes; p4_denc : bytes; p4_version : N; p4_new_version : N }.
Definition ser_row4 (p : prow4) : bytes :=
  ser_msg (opt_bytes 1 (p4_id p) ++ opt_var 2 (p4_tries p) ++ opt_bytes 3 (p4_oprf p)
        ++ opt_bytes 4 (p4_auth p) ++ opt_bytes 5 (p4_enc p) ++ opt_bytes 6 (p4_zero p)
        ++ opt_bytes 7 (p4_doprf p) ++ opt_bytes 8 (p4_denc p)
        ++ opt_64 9 (p4_version p) ++ opt_64 10 (p4_new_version p)).
Definition parse_row4 (s : bytes) : option prow4 :=
  match parse_msg s with
  | None => None
  | Some l => Some (PRow4 (get_bytes 1 l []) (get_var 2 l 0 mod 2 ^ 32) (get_bytes 3 l [])
      (get_bytes 4 l []) (get_bytes 5 l []) (get_bytes 6 l []) (get_bytes 7 l []) (get_bytes 8 l [])
      (get_64 9 l 0) (get_64 10 l 0))
  end.
(* db4.cc:330-344 *)
Definition row_proto4 (id : bytes) (x : row4 * option rrow4) : prow4 :=
  let (r, o) := x in
  PRow4 id (r4_tries r) (r4_oprf r) (r4_auth r) (r4_enc r) (r4_zero r)
    (match o with Some rr => rr_oprf rr | None => [] end)
    (match o with Some rr => rr_enc rr | None => [] end)
    (r4_version r)
    (match o with Some rr => rr_version rr | None => 0 end).
(* the two iterators walked together (db4.cc:329-344, 473-482): the rows with
   their rotation rows, and what the rotation iterator has left at the end *)
Fixpoint walk4 (rows : smap row4) (rots : smap rrow4) : smap (row4 * option rrow4) * smap rrow4 :=
  match rows with
  | [] => ([], rots)
  | (k, r) :: rows' =>
      match rots with
      | (k', rr) :: rots' =>
          if beq k' k then let (l, rest) := walk4 rows' rots' in ((k, (r, Some rr)) :: l, rest)
          else let (l, rest) := walk4 rows' rots in ((k, (r, None)) :: l, rest)
      | [] => let (l, rest) := walk4 rows' [] in ((k, (r, None)) :: l, rest)
      end
  end.
(* db4.cc:239-256 MaxRowSerializedSize *)
Definition max_row_size4 : nat := 16 + 2 + 2 + (32 + 2) + (32 + 2) + (32 + 2) + (32 + 2) + (32 + 2) + (32 + 2) + 5 + 5.
(* db4.cc:316-351 RowsAsProtos *)
Definition rows_as_protos4 (db : db4) : bytes -> nat -> bytes * dberr * list bytes :=
  dump_rows (fun id x => ser_row4 (row_proto4 id x)) (fst (walk4 (rows4 db) (rots4 db)))
            (fun start => fst (walk4 (above start (rows4 db)) (above start (rots4 db)))).
(* db4.cc:357-405 loop body of LoadRowsFromProtos; the uint32_t fields truncate
   the fixed64 ones; map::emplace_hint does not replace *)
Definition load_row4 (db : db4) (s : bytes) : db4 * dberr * bytes :=
  match parse_row4 s with
  | None => (db, E_InvalidRow, [])
  | Some p =>
      if ((MAX_TRIES4 <? p4_tries p) || (p4_tries p <? 1))%bool then (db, E_InvalidRow, p4_id p) else
      match arr_from ID_SIZE4 (p4_id p) with
      | None => (db, E_BackupIDSize, p4_id p)
      | Some key =>
          let ooo := match last_key (rows4 db) with Some k => ble key k | None => false end in
          if ooo then (db, E_OutOfOrder, p4_id p) else
          match pt_from (p4_auth p), sc_from (p4_oprf p), sc_from (p4_zero p), arr_from KEY_SIZE4 (p4_enc p) with
          | Some a, Some o, Some z, Some e =>
              let r := Row4 a o e z (p4_version p mod 2 ^ 32) (p4_tries p mod 256) in
              let rows' := put key r (rows4 db) in
              if p4_new_version p =? 0 then (DB4 rows' (rots4 db), E_OK, p4_id p) else
              match sc_from (p4_doprf p), arr_from KEY_SIZE4 (p4_denc p) with
              | Some od, Some ed =>
                  (DB4 rows' (match lookup key (rots4 db) with
                              | Some _ => rots4 db
                              | None => put key (RRow4 (p4_new_version p mod 2 ^ 32) od ed) (rots4 db)
                              end), E_OK, p4_id p)
              | _, _ => (db, E_InvalidRow, p4_id p)
              end
          | _, _, _, _ => (db, E_InvalidRow, p4_id p)
          end
      end
  end.
(* db4.cc:353-412 LoadRowsFromProtos (no CHECK on the number of rows) *)
Definition load_rows4 : db4 -> list bytes -> outcome (db4 * bytes * dberr) :=
  load_rows false (fun db => length (rows4 db)) load_row4.
End DB4.

(* db4.cc:414-463 HashRow: the bytes hashed; tries is one byte *)
Definition hashrow_bytes4 (id : bytes) (x : row4 * option rrow4) : bytes :=
  let (r, o) := x in
  id ++ r4_auth r ++ r4_oprf r ++ r4_enc r ++ r4_zero r ++ [r4_tries r] ++ be32 (r4_version r)
  ++ match o with
     | Some rr => be32 (rr_version rr) ++ rr_oprf rr ++ rr_enc rr
     | None => zeros (4 + 32 + 32)
     end.
(* db4.cc:466-487 Hash; the CHECK at 483 is the Crash branch *)
Definition hash4 (sip16 sha256 : bytes -> bytes) (db : db4) : outcome bytes :=
  let (l, rest) := walk4 (rows4 db) (rots4 db) in
  match rest with
  | [] => Ret (db_hash sip16 sha256 (map (fun kv => hashrow_bytes4 (fst kv) (snd kv)) l))
  | _ => Crash
  end.
