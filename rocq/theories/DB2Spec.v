(* Specification of the SVR2 store as one account's owner sees it.  Only the
   request/response vocabulary is taken from the model, none of its functions. *)
From Verif Require Import DB2.
From Verif Require Export HistSpec.

(* Which requests are legal (db2.h:65-70 limits). *)
Definition legal (l : log2) : bool :=
  (length (l_id l) =? 16)%nat &&
  match l_req l with
  | Backup data pin t =>
      (length pin =? 32)%nat && (16 <=? length data)%nat && (length data <=? 48)%nat
      && (1 <=? t) && (t <=? 255)
  | Restore pin => (length pin =? 32)%nat
  | Expose data => (16 <=? length data)%nat && (length data <=? 48)%nat
  | Delete | Tries => true
  | ReqUnset => false
  end.

Definition is_prefix (p s : bytes) : bool := beq p (firstn (length p) s).

(* The record of one account, and how one request changes it. *)
Inductive acct :=
| NoAcct
| Acct (data pin : bytes) (tries : N) (exposed : bool).

Definition acct_step (a : acct) (i : in2) : acct * option resp2 :=
  if legal (i_log i) then
    match l_req (i_log i) with
    | Backup data pin mt => (Acct data pin mt false, Some RspBackup)
    | Restore guess =>
        match a with
        | Acct data pin t true =>
            if negb (i_vok i) then (a, Some (RspRestore RS_ERROR [] 0))
            else if beq guess pin then (a, Some (RspRestore RS_OK data t))
            else if t =? 1 then (NoAcct, Some (RspRestore RS_MISSING [] 0))
            else (Acct data pin (t - 1) true, Some (RspRestore RS_PIN_MISMATCH [] (t - 1)))
        | _ => (a, Some (RspRestore RS_MISSING [] 0))
        end
    | Expose x =>
        match a with
        | Acct data pin t _ =>
            if i_vok i && is_prefix data x
            then (Acct data pin t true, Some (RspExpose true))
            else (a, Some (RspExpose false))
        | NoAcct => (a, Some (RspExpose false))
        end
    | Delete => (NoAcct, Some RspDelete)
    | Tries =>
        match a with
        | Acct _ _ t e => (a, Some (RspTries true t e))
        | NoAcct => (a, Some (RspTries false 0 false))
        end
    | ReqUnset => (a, Some RspNone)
    end
  else (a, None).

(* Kinds of input, for stating histories. *)
Definition for_id (id : bytes) (i : in2) : bool := beq (l_id (i_log i)) id.
Definition is_backup (id : bytes) (i : in2) : bool :=
  for_id id i && legal (i_log i) &&
  match l_req (i_log i) with Backup _ _ _ => true | _ => false end.
Definition is_delete (id : bytes) (i : in2) : bool :=
  for_id id i && legal (i_log i) &&
  match l_req (i_log i) with Delete => true | _ => false end.
(* a Restore with a PIN other than [pin] *)
Definition wrong_guess (id pin : bytes) (i : in2) : bool :=
  for_id id i && legal (i_log i) && i_vok i &&
  match l_req (i_log i) with Restore g => negb (beq g pin) | _ => false end.
(* an Expose whose data starts with [data] *)
Definition good_expose (id data : bytes) (i : in2) : bool :=
  for_id id i && legal (i_log i) && i_vok i &&
  match l_req (i_log i) with Expose x => is_prefix data x | _ => false end.

(* The row message of one record, as it must look to be accepted by a load. *)
Definition row_msg_ok (p : prow2) : bool :=
  (length (p_id p) =? 16)%nat && (length (p_pin p) =? 32)%nat
  && (16 <=? length (p_data p))%nat && (length (p_data p) <=? 48)%nat
  && (1 <=? p_tries p) && (p_tries p <=? 255).
Definition row_of_msg (p : prow2) : row2 :=
  Row2 (p_state p) (p_tries p) (blen (p_data p))
       (p_data p ++ zeros (48 - length (p_data p))) (p_pin p).

(* Databases that some history of requests produces. *)
Definition reachable2 (m : db2) : Prop := exists h rs, exec2 [] h = Ret (m, rs).

(* The tries counter as a Tries request reports it. *)
Definition tries_seen (m : db2) (id : bytes) : option N :=
  match apply2 m (In2 true (Log2 id Tries)) with
  | Ret (_, Some (RspTries true t _)) => Some t
  | _ => None
  end.
