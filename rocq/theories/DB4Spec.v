(* Specification of the SVR4 store as one account's owner sees it. *)
From Verif Require Import DB4.
From Verif Require Export HistSpec.

Section Spec4.
Variable c : crypto4.

(* a 32-byte string that is a point / a scalar *)
Definition is_point (s : bytes) : bool := (length s =? 32)%nat && pt_valid c s.
Definition is_scalar (s : bytes) : bool := (length s =? 32)%nat && sc_valid c s.

Definition legal4 (l : log4) : bool :=
  (length (l4_id l) =? 16)%nat &&
  match l4_req l with
  | Create4 t oprf auth enc zero v =>
      (t <=? 255) && is_point auth && is_scalar oprf && is_scalar zero && (length enc =? 32)%nat && (1 <=? v)
  | Restore1_4 b => is_point b
  | Remove4 | Query4 => true
  | RotateStart4 v od ed => (1 <=? v) && is_scalar od && (length ed =? 32)%nat
  | RotateCommit4 v | RotateRollback4 v => 1 <=? v
  | Restore2_4 _ _ _ | Unset4 => false
  end.

(* fixed32 version fields *)
Definition typed4 (i : in4) : bool :=
  match l4_req (i4_log i) with
  | Create4 _ _ _ _ _ v | RotateStart4 v _ _ | RotateCommit4 v | RotateRollback4 v => v <? 2 ^ 32
  | _ => true
  end.

(* key*blinded + zero*Hash(id, blinded), the second term only for a nonzero share *)
Definition oprf (id blinded key zero : bytes) : option bytes :=
  match from_hash4 c (sha512 c (id ++ blinded)), smul4 c key blinded with
  | Some h, Some b =>
      if beq zero (repeat 0 32) then padd4 c (repeat 0 32) b
      else match smul4 c zero h with Some m => padd4 c m b | None => None end
  | _, _ => None
  end.

Definition xor32 (a b : bytes) : bytes := map (fun p => N.lxor (fst p) (snd p)) (combine a b).

(* An account: its record, and the rotation in progress if any. *)
Definition acct4 := option (row4 * option rrow4).
Definition with_tries (r : row4) (t : N) : row4 :=
  Row4 (r4_auth r) (r4_oprf r) (r4_enc r) (r4_zero r) (r4_version r) t.
Definition rotated (r : row4) (rr : rrow4) : row4 :=
  Row4 (r4_auth r) (sc_add c (rr_oprf rr) (r4_oprf r)) (xor32 (r4_enc r) (rr_enc rr)) (r4_zero r)
       (rr_version rr) (r4_tries r).

(* what a Restore1 on a live account reports *)
Definition restore_answer (id b : bytes) (r : row4) (o : option rrow4) (t : N) : eff4 :=
  match oprf id b (r4_oprf r) (r4_zero r), o with
  | None, _ => (RspRestore1_4 S4_ERROR [] t, None)
  | Some e1, None =>
      (RspRestore1_4 S4_OK [(e1, r4_version r)] t,
       Some (R2State (r4_auth r) (r4_enc r) [] (r4_version r) 0 b))
  | Some e1, Some rr =>
      match oprf id b (sc_add c (rr_oprf rr) (r4_oprf r)) (r4_zero r) with
      | None => (RspRestore1_4 S4_ERROR [] t, None)
      | Some e2 =>
          (RspRestore1_4 S4_OK [(e1, r4_version r); (e2, rr_version rr)] t,
           Some (R2State (r4_auth r) (r4_enc r) (xor32 (r4_enc r) (rr_enc rr)) (r4_version r) (rr_version rr) b))
      end
  end.

Definition acct_step4 (a : acct4) (i : in4) : acct4 * option eff4 :=
  if legal4 (i4_log i) then
    match l4_req (i4_log i), a with
    | Create4 t oprf auth enc zero v, None =>
        if t =? 0 then (None, Some (RspCreate4 S4_INVALID 0, None))
        else (Some (Row4 auth oprf enc zero v t, None), Some (RspCreate4 S4_OK t, None))
    | Create4 t oprf auth enc zero v, Some (r, _) =>
        let t' := if t =? 0 then r4_tries r else t in
        (Some (Row4 auth oprf enc zero v t', None), Some (RspCreate4 S4_OK t', None))
    | Restore1_4 b, None => (None, Some (RspRestore1_4 S4_MISSING [] 0, None))
    | Restore1_4 b, Some (r, o) =>
        if i4_vok i then
          (if r4_tries r =? 1 then None else Some (with_tries r (r4_tries r - 1), o),
           Some (restore_answer (l4_id (i4_log i)) b r o (r4_tries r - 1)))
        else (a, Some (RspRestore1_4 S4_MERKLE_FAILURE [] 0, None))
    | Remove4, _ => (None, Some (RspRemove4, None))
    | Query4, None => (None, Some (RspQuery4 S4_MISSING 0 0 0, None))
    | Query4, Some (r, o) =>
        (a, Some (RspQuery4 S4_OK (r4_tries r) (r4_version r)
                    (match o with Some rr => rr_version rr | None => 0 end), None))
    | RotateStart4 _ _ _, None => (None, Some (RspRotateStart4 S4_MISSING, None))
    | RotateStart4 _ _ _, Some (_, Some _) => (a, Some (RspRotateStart4 S4_ALREADY_ROTATING, None))
    | RotateStart4 v od ed, Some (r, None) =>
        if v =? r4_version r then (a, Some (RspRotateStart4 S4_DUPLICATE_VERSION, None))
        else if i4_vok i then (Some (r, Some (RRow4 v od ed)), Some (RspRotateStart4 S4_OK, None))
        else (a, Some (RspRotateStart4 S4_MERKLE_FAILURE, None))
    | RotateCommit4 _, None => (None, Some (RspRotateCommit4 S4_MISSING, None))
    | RotateCommit4 _, Some (_, None) => (a, Some (RspRotateCommit4 S4_NOT_ROTATING, None))
    | RotateCommit4 v, Some (r, Some rr) =>
        if negb (rr_version rr =? v) then (a, Some (RspRotateCommit4 S4_VERSION_MISMATCH, None))
        else if i4_vok i then (Some (rotated r rr, None), Some (RspRotateCommit4 S4_OK, None))
        else (a, Some (RspRotateCommit4 S4_MERKLE_FAILURE, None))
    | RotateRollback4 _, None => (None, Some (RspRotateRollback4 S4_MISSING, None))
    | RotateRollback4 _, Some (_, None) => (a, Some (RspRotateRollback4 S4_NOT_ROTATING, None))
    | RotateRollback4 v, Some (r, Some rr) =>
        if negb (rr_version rr =? v) then (a, Some (RspRotateRollback4 S4_VERSION_MISMATCH, None))
        else if i4_vok i then (Some (r, None), Some (RspRotateRollback4 S4_OK, None))
        else (a, Some (RspRotateRollback4 S4_MERKLE_FAILURE, None))
    | Restore2_4 _ _ _, _ | Unset4, _ => (a, None)
    end
  else (a, None).

(* the account the database holds under an id *)
Definition account4 (id : bytes) (m : db4) : acct4 :=
  match lookup id (rows4 m) with None => None | Some r => Some (r, lookup id (rots4 m)) end.

Definition for_id4 (id : bytes) (i : in4) : bool := beq (l4_id (i4_log i)) id.
Definition req_of (id : bytes) (p : in4 -> bool) (i : in4) : bool :=
  for_id4 id i && legal4 (i4_log i) && p i.
(* a Create *)
Definition is_create4 (id : bytes) : in4 -> bool := req_of id (fun i =>
  match l4_req (i4_log i) with Create4 _ _ _ _ _ _ => true | _ => false end).
(* a Create that sets the tries *)
Definition is_reset4 (id : bytes) : in4 -> bool := req_of id (fun i =>
  match l4_req (i4_log i) with Create4 t _ _ _ _ _ => negb (t =? 0) | _ => false end).
Definition is_remove4 (id : bytes) : in4 -> bool := req_of id (fun i =>
  match l4_req (i4_log i) with Remove4 => true | _ => false end).
(* a Restore1 on an intact record *)
Definition is_restore4 (id : bytes) : in4 -> bool := req_of id (fun i =>
  i4_vok i && match l4_req (i4_log i) with Restore1_4 _ => true | _ => false end).
(* the end of the rotation to version v *)
Definition is_finish4 (id : bytes) (v : N) : in4 -> bool := req_of id (fun i =>
  match l4_req (i4_log i) with
  | RotateCommit4 w | RotateRollback4 w => w =? v
  | _ => false
  end).

Definition reachable4 (m : db4) : Prop :=
  exists h rs, Forall (fun i => typed4 i = true) h /\ exec4 c empty4 h = Ret (m, rs).

Definition row_msg_ok4 (p : prow4) : bool :=
  (length (p4_id p) =? 16)%nat && (1 <=? p4_tries p) && (p4_tries p <=? 255)
  && is_point (p4_auth p) && is_scalar (p4_oprf p) && is_scalar (p4_zero p) && (length (p4_enc p) =? 32)%nat
  && ((p4_new_version p =? 0) || (is_scalar (p4_doprf p) && (length (p4_denc p) =? 32)%nat)).
(* the account a row message describes; versions are 32 bits *)
Definition msg_row4 (p : prow4) : row4 :=
  Row4 (p4_auth p) (p4_oprf p) (p4_enc p) (p4_zero p) (p4_version p mod 2 ^ 32) (p4_tries p).
Definition msg_rot4 (p : prow4) : option rrow4 :=
  if p4_new_version p =? 0 then None
  else Some (RRow4 (p4_new_version p mod 2 ^ 32) (p4_doprf p) (p4_denc p)).

(* --- one connection --- *)
Definition is_request (e : sess4) : bool := match e with SReq4 _ => true | SEff4 _ => false end.
Definition is_restore1_ok (e : sess4) : bool :=
  match e with SEff4 (RspRestore1_4 S4_OK _ _, _) => true | _ => false end.
(* z*G = R + H(R, blinded, handshake)*commitment *)
Definition proof_ok (hh commitment blinded ap az : bytes) : Prop :=
  exists l r, is_scalar az = true /\ is_point ap = true /\ is_point commitment = true /\
    sbase4 c az = Some l /\ smul4 c (sc_reduce c (sha512 c (ap ++ blinded ++ hh))) commitment = Some r /\
    padd4 c r ap = Some l.
End Spec4.
