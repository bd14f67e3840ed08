(* Specification of the SVR3 store as one account's owner sees it. *)
From Verif Require Import DB3.
From Verif Require Export HistSpec.

Definition legal3 (l : log3) : bool :=
  (length (l3_id l) =? 16)%nat &&
  match l3_req l with
  | Create3 t e => (1 <=? t) && (t <=? 255) && (length e =? 32)%nat && (length (l3_priv l) =? 32)%nat
  | Evaluate3 e => (length e =? 32)%nat
  | Remove3 | Query3 => true
  | Unset3 => false
  end.

Section Spec3.
Variable smul : bytes -> bytes -> option bytes.

(* One account: nothing, or a private key and the evaluations left. *)
Inductive acct3 := NoAcct3 | Acct3 (priv : bytes) (tries : N).

Definition acct_step3 (a : acct3) (i : in3) : acct3 * option resp3 :=
  if legal3 (i3_log i) then
    match l3_req (i3_log i) with
    | Create3 t e =>
        match smul (l3_priv (i3_log i)) e with
        | Some ev => (Acct3 (l3_priv (i3_log i)) t, Some (RspCreate3 S3_OK ev))
        | None => (a, Some (RspCreate3 S3_ERROR []))
        end
    | Evaluate3 e =>
        match a with
        | NoAcct3 => (a, Some (RspEvaluate3 S3_MISSING [] 0))
        | Acct3 k t =>
            match (if i3_vok i then smul k e else None) with
            | None => (a, Some (RspEvaluate3 S3_ERROR [] 0))
            | Some ev => (if t =? 1 then NoAcct3 else Acct3 k (t - 1),
                          Some (RspEvaluate3 S3_OK ev (t - 1)))
            end
        end
    | Remove3 => (NoAcct3, Some RspRemove3)
    | Query3 =>
        (a, Some match a with NoAcct3 => RspQuery3 S3_MISSING 0 | Acct3 _ t => RspQuery3 S3_OK t end)
    | Unset3 => (a, None)
    end
  else (a, None).

Definition for_id3 (id : bytes) (i : in3) : bool := beq (l3_id (i3_log i)) id.
(* a Create that stores a key *)
Definition is_create3 (id : bytes) (i : in3) : bool :=
  for_id3 id i && legal3 (i3_log i) &&
  match l3_req (i3_log i) with
  | Create3 _ e => match smul (l3_priv (i3_log i)) e with Some _ => true | None => false end
  | _ => false
  end.
Definition is_remove3 (id : bytes) (i : in3) : bool :=
  for_id3 id i && legal3 (i3_log i) &&
  match l3_req (i3_log i) with Remove3 => true | _ => false end.
(* an Evaluate of an element the key can be applied to *)
Definition is_eval3 (id key : bytes) (i : in3) : bool :=
  for_id3 id i && legal3 (i3_log i) && i3_vok i &&
  match l3_req (i3_log i) with
  | Evaluate3 e => match smul key e with Some _ => true | None => false end
  | _ => false
  end.

Definition reachable3 (m : db3) : Prop := exists h rs, exec3 smul [] h = Ret (m, rs).
End Spec3.

Definition row_msg_ok3 (p : prow3) : bool :=
  (length (p3_id p) =? 16)%nat && (length (p3_priv p) =? 32)%nat
  && (1 <=? p3_tries p) && (p3_tries p <=? 255).
