(* Specification of the DB5 store as one account's owner sees it. *)
From Verif Require Import DB5.
From Verif Require Export HistSpec.

Definition legal5 (l : log5) : bool :=
  (length (l5_id l) =? 16)%nat &&
  match l5_req l with
  | Upload5 d => (length d =? 32)%nat
  | Download5 p => (length p =? 32)%nat
  | Purge5 => true
  | Unset5 => false
  end.

Section Spec5.
Variable hmac : bytes -> bytes -> bytes.
(* One account: the stored data, if any. *)
Definition acct_step5 (a : option bytes) (i : in5) : option bytes * option resp5 :=
  if legal5 (i5_log i) then
    match l5_req (i5_log i) with
    | Upload5 d => (Some d, Some (RspUpload5 S5_OK))
    | Download5 p =>
        (a, Some match a with
                 | None => RspDownload5 S5_MISSING []
                 | Some d => if i5_vok i then RspDownload5 S5_OK (hmac d p)
                             else RspDownload5 S5_MERKLE_FAILURE []
                 end)
    | Purge5 => (None, Some RspPurge5)
    | Unset5 => (a, None)
    end
  else (a, None).
Definition for_id5 (id : bytes) (i : in5) : bool := beq (l5_id (i5_log i)) id.
Definition is_upload5 (id : bytes) (i : in5) : bool :=
  for_id5 id i && legal5 (i5_log i) && match l5_req (i5_log i) with Upload5 _ => true | _ => false end.
Definition is_purge5 (id : bytes) (i : in5) : bool :=
  for_id5 id i && legal5 (i5_log i) && match l5_req (i5_log i) with Purge5 => true | _ => false end.
Definition reachable5 (m : db5) : Prop := exists h rs, exec5 hmac [] h = Ret (m, rs).
End Spec5.
Definition row_msg_ok5 (p : prow5) : bool := (length (p5_id p) =? 16)%nat && (length (p5_data p) =? 32)%nat.
