(* What the four databases share: error codes, the row iteration of
   RowsAsProtos and the loop of LoadRowsFromProtos (the C++ repeats this code in
   db2.cc:287-367, db3.cc:134-206, db4.cc:316-412 and db5.cc:173-255). *)
From Verif Require Export Base SMap Util Hist Wire.

Inductive dberr := E_OK | E_BackupIDSize | E_PinSize | E_DataSize | E_TriesTooHigh | E_TriesZero
| E_RequestCase | E_RequestInvalid | E_TriesOutOfRange | E_ElementSize | E_KeyInvalid
| E_PasswordSize | E_InvalidRow | E_OutOfOrder | E_AlreadyInDB.

Definition is_ok (e : dberr) : bool := match e with E_OK => true | _ => false end.

(* RowsAsProtos: at most [size] rows after [start] ("" = from the beginning),
   with the key of the last one; [ser] is the serialization of one row. *)
Definition dump_rows {V} (ser : bytes -> V -> bytes) (from_start : smap V) (after : bytes -> smap V)
  (start : bytes) (size : nat) : bytes * dberr * list bytes :=
  match start with
  | [] =>
      let sel := firstn size from_start in
      (match last_key sel with Some k => k | None => [] end, E_OK,
       map (fun kv => ser (fst kv) (snd kv)) sel)
  | _ :: _ =>
      if negb (Nat.eqb (length start) 16) then ([], E_BackupIDSize, []) else
      let sel := firstn size (after start) in
      (match last_key sel with Some k => k | None => [] end, E_OK,
       map (fun kv => ser (fst kv) (snd kv)) sel)
  end.

(* LoadRowsFromProtos.  [load_row] handles one row string: new state, error and
   the row's backup id.  [nonempty] is the CHECK(rows.size()) that db2 and db5
   have. *)
Section Load.
Context {S : Type}.
Variable nonempty : bool.
Variable count : S -> nat.
Variable load_row : S -> bytes -> S * dberr * bytes.

Fixpoint load_loop (s : S) (rows : list bytes) (last : bytes) : S * bytes * dberr :=
  match rows with
  | [] => (s, last, E_OK)
  | r :: rows' =>
      match load_row s r with
      | (s', E_OK, id) => load_loop s' rows' id
      | (s', e, _) => (s', [], e)
      end
  end.
Definition load_rows (s : S) (rows : list bytes) : outcome (S * bytes * dberr) :=
  if (nonempty && Nat.eqb (length rows) 0)%bool then Crash else
  match load_loop s rows [] with
  | (s', last, E_OK) =>
      if Nat.eqb (count s') (count s + length rows)
      then Ret (s', last, E_OK) else Ret (s', [], E_AlreadyInDB)
  | (s', _, e) => Ret (s', [], e)
  end.
End Load.

(* State transfer: the source dumps chunks of the given sizes, each starting
   after the last key of the previous one; the destination loads them in order.
   A chunk without rows is the end of the database and is not loaded. *)
Section Transfer.
Context {S : Type}.
Variable dump : bytes -> nat -> bytes * dberr * list bytes.
Variable load : S -> list bytes -> outcome (S * bytes * dberr).
Fixpoint transfer (dst : S) (start : bytes) (sizes : list nat) : outcome (S * dberr) :=
  match sizes with
  | [] => Ret (dst, E_OK)
  | n :: sizes' =>
      match dump start n with
      | (_, E_OK, []) => Ret (dst, E_OK)
      | (_, E_OK, rows) =>
          match load dst rows with
          | Ret (dst', last, E_OK) => transfer dst' last sizes'
          | Ret (dst', _, e) => Ret (dst', e)
          | Crash => Crash
          end
      | (_, e, _) => Ret (dst, e)
      end
  end.
End Transfer.
Definition total (sizes : list nat) : nat := fold_right Nat.add 0%nat sizes.

(* Hash of a database (db2.cc:399-413, db3.cc:225-240, db4.cc:466-487,
   db5.cc:279-294): SHA-256 over the number of rows and the 16-byte SipHash of
   each row's fixed-layout byte string, in key order. *)
Definition db_hash (sip16 sha256 : bytes -> bytes) (rows : list bytes) : bytes :=
  sha256 (be64 (N.of_nat (length rows)) ++ flat_map sip16 rows).
