(* The databases together with their integrity tree: each row owns a leaf, whose
   hash is the first 8 bytes of the row's SipHash (merkle.h:154-160 HashFrom). *)
From Verif Require Export DB2 DB3 DB4 DB5 Merkle.

(* What a request does to the tree, in order: construct the leaf of a row
   (rows_.emplace(.., merkle_tree_)), row->merkle_leaf_.Update(HashFrom(HashRow(..)))
   with the row as the request leaves it, destroy it (rows_.erase). *)
Inductive act := ANew (k : bytes) | AUpdate (k : bytes) | AErase (k : bytes).

Section MDB.
Variable sip8 : bytes -> bytes.                (* the tree's keyed hash *)
Variable sip16 : bytes -> bytes.               (* sip::FullZero.Hash16 *)
Context {S L R : Type}.
Variable key : L -> bytes.                     (* the row a request is about *)
Variable hb : S -> bytes -> option (outcome bytes).  (* bytes HashRow hashes for the row, None: no row *)
Variable apply : S -> bool -> L -> outcome (S * R).  (* the database, given the verdict of Verify *)
Variable acts : S -> bool -> L -> list act.

Definition rowhash (b : bytes) : bytes := firstn 8 (sip16 b).
Definition act_run (s' : S) (a : act) (t : tree) : outcome tree :=
  match a with
  | ANew k => new_leaf k t
  | AUpdate k =>
      match hb s' k with Some (Ret b) => update sip8 k (rowhash b) t | _ => Crash end
  | AErase k => remove sip8 k t
  end.
Fixpoint acts_run (s' : S) (l : list act) (t : tree) : outcome tree :=
  match l with
  | [] => Ret t
  | a :: l' => match act_run s' a t with Ret t' => acts_run s' l' t' | Crash => Crash end
  end.
(* row->merkle_leaf_.Verify(HashFrom(HashRow(id, *row))) == OK.  Verify changes
   nothing, so it is evaluated up front; requests that do not call it ignore it. *)
Definition verdict_of (s : S) (t : tree) (k : bytes) : outcome bool :=
  match hb s k with
  | None => Ret true
  | Some Crash => Crash
  | Some (Ret b) =>
      match verify sip8 k (rowhash b) t with
      | Ret V_OK => Ret true
      | Ret _ => Ret false
      | Crash => Crash
      end
  end.
Definition mdb_step (st : S * tree) (l : L) : outcome ((S * tree) * R) :=
  let (s, t) := st in
  match verdict_of s t (key l) with
  | Crash => Crash
  | Ret v =>
      match apply s v l with
      | Crash => Crash
      | Ret (s', r) =>
          match acts_run s' (acts s v l) t with
          | Crash => Crash
          | Ret t' => Ret ((s', t'), r)
          end
      end
  end.
Definition mdb_exec : S * tree -> list L -> outcome ((S * tree) * list R) := exec mdb_step.
End MDB.

(* db2.cc HashRow of a row, and the tree calls of Backup 163-176, Restore
   188-212, Delete 217-225, Expose 253-266 *)
Definition hb2 (m : db2) (k : bytes) : option (outcome bytes) :=
  match lookup k m with None => None | Some r => Some (hashrow_bytes2 k r) end.
Definition acts2 (m : db2) (vok : bool) (l : log2) : list act :=
  let id := l_id l in
  match validate2 l with
  | E_OK =>
      match l_req l, lookup id m with
      | Backup _ _ _, None => [ANew id; AUpdate id]
      | Backup _ _ _, Some _ => [AUpdate id]
      | Restore pin, Some row =>
          if negb (r_state row =? AVAILABLE) then [] else
          if negb vok then [] else
          match ct_equals pin (r_pin row) with
          | Ret false => if (r_tries row + 255) mod 256 =? 0 then [AErase id] else [AUpdate id]
          | _ => []
          end
      | Delete, Some _ => [AErase id]
      | Expose data, Some row =>
          if negb vok then [] else
          match ct_equals_prefix (r_data row) data (N.to_nat (r_dsize row)) with
          | Ret true =>
              if ((r_state row =? POPULATED) || (r_state row =? AVAILABLE))%bool then [AUpdate id] else []
          | _ => []
          end
      | _, _ => []
      end
  | _ => []
  end.
Definition mdb2_step sip8 sip16 :=
  mdb_step sip8 sip16 l_id hb2 (fun m v l => apply2 m (In2 v l)) acts2.
Definition mdb2_exec sip8 sip16 :=
  mdb_exec sip8 sip16 l_id hb2 (fun m v l => apply2 m (In2 v l)) acts2.

(* db3.cc: Create 281-290, Evaluate 309-329, Remove 335-346 *)
Definition hb3 (m : db3) (k : bytes) : option (outcome bytes) :=
  match lookup k m with None => None | Some r => Some (Ret (hashrow_bytes3 k r)) end.
Definition acts3 (smul : bytes -> bytes -> option bytes) (m : db3) (vok : bool) (l : log3) : list act :=
  let id := l3_id l in
  match validate3 l with
  | E_OK =>
      match l3_req l, lookup id m with
      | Create3 _ e, found =>
          match smul (l3_priv l) e with
          | None => []
          | Some _ => match found with None => [ANew id; AUpdate id] | Some _ => [AUpdate id] end
          end
      | Evaluate3 e, Some row =>
          if negb vok then [] else
          match smul (r3_priv row) e with
          | None => []
          | Some _ => if (r3_tries row + 255) mod 256 =? 0 then [AErase id] else [AUpdate id]
          end
      | Remove3, Some _ => [AErase id]
      | _, _ => []
      end
  | _ => []
  end.
Definition mdb3_step smul sip8 sip16 :=
  mdb_step sip8 sip16 l3_id hb3 (fun m v l => apply3 smul m (In3 v l)) (acts3 smul).
Definition mdb3_exec smul sip8 sip16 :=
  mdb_exec sip8 sip16 l3_id hb3 (fun m v l => apply3 smul m (In3 v l)) (acts3 smul).

(* db4.cc: Create 494-518, Restore1 539-622, Remove 676-688, RotateStart
   737-748, RotateCommit 775-786, RotateRollback 812-818 *)
Definition hb4 (m : db4) (k : bytes) : option (outcome bytes) :=
  match lookup k (rows4 m) with
  | None => None
  | Some r => Some (Ret (hashrow_bytes4 k (r, lookup k (rots4 m))))
  end.
Definition acts4 (m : db4) (vok : bool) (l : log4) (c : crypto4) : list act :=
  let id := l4_id l in
  match validate4 c l with
  | E_OK =>
      match l4_req l, lookup id (rows4 m) with
      | Create4 mt _ _ _ _ _, None => if mt =? 0 then [] else [ANew id; AUpdate id]
      | Create4 _ _ _ _ _ _, Some _ => [AUpdate id]
      | Restore1_4 _, Some row =>
          if negb vok then [] else
          if (r4_tries row + 255) mod 256 =? 0 then [AErase id] else [AUpdate id]
      | Remove4, Some _ => [AErase id]
      | RotateStart4 v _ _, Some row =>
          match lookup id (rots4 m) with
          | Some _ => []
          | None => if v =? r4_version row then [] else if negb vok then [] else [AUpdate id]
          end
      | RotateCommit4 v, Some _ | RotateRollback4 v, Some _ =>
          match lookup id (rots4 m) with
          | None => []
          | Some rr => if negb (rr_version rr =? v) then [] else if negb vok then [] else [AUpdate id]
          end
      | _, _ => []
      end
  | _ => []
  end.
Definition mdb4_step c sip8 sip16 :=
  mdb_step sip8 sip16 l4_id hb4 (fun m v l => apply4 c m (In4 v l)) (fun m v l => acts4 m v l c).
Definition mdb4_exec c sip8 sip16 :=
  mdb_exec sip8 sip16 l4_id hb4 (fun m v l => apply4 c m (In4 v l)) (fun m v l => acts4 m v l c).

(* db5.cc: Upload 132-146, Purge 166-171 *)
Definition hb5 (m : db5) (k : bytes) : option (outcome bytes) :=
  match lookup k m with None => None | Some d => Some (Ret (hashrow_bytes5 k d)) end.
Definition acts5 (m : db5) (vok : bool) (l : log5) : list act :=
  let id := l5_id l in
  match validate5 l with
  | E_OK =>
      match l5_req l, lookup id m with
      | Upload5 _, None => [ANew id; AUpdate id]
      | Upload5 _, Some _ => [AUpdate id]
      | Purge5, Some _ => [AErase id]
      | _, _ => []
      end
  | _ => []
  end.
Definition mdb5_step hmac sip8 sip16 :=
  mdb_step sip8 sip16 l5_id hb5 (fun m v l => apply5 hmac m (In5 v l)) acts5.
Definition mdb5_exec hmac sip8 sip16 :=
  mdb_exec sip8 sip16 l5_id hb5 (fun m v l => apply5 hmac m (In5 v l)) acts5.
