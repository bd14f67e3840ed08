(* Vocabulary for statements about requests as bytes. *)
From Verif Require Export ReqWire.
From Verif Require Import DB2 DB3 DB4 DB5.

(* A string or number that the wire format can carry (a protobuf message is shorter
   than 2^31 bytes, and the numbers here are of 32 bits). *)
Definition str_fits (b : bytes) : Prop := blen b < 2 ^ 32.
Definition num_fits (n : N) : Prop := n < 2 ^ 32.
Definition fits2 (r : req2) : Prop :=
  match r with
  | Backup data pin t => str_fits data /\ str_fits pin /\ num_fits t
  | Expose data => str_fits data
  | Restore pin => str_fits pin
  | Delete | Tries | ReqUnset => True
  end.
Definition fits3 (r : req3) : Prop :=
  match r with Create3 t e => num_fits t /\ str_fits e | Evaluate3 e => str_fits e | Remove3 | Query3 | Unset3 => True end.
Definition fits4 (r : req4) : Prop :=
  match r with
  | Create4 t oprf auth enc zero v => num_fits t /\ str_fits oprf /\ str_fits auth /\ str_fits enc /\ str_fits zero /\ num_fits v
  | Restore1_4 b => str_fits b
  | Restore2_4 p s v => str_fits p /\ str_fits s /\ num_fits v
  | RotateStart4 v od ed => num_fits v /\ str_fits od /\ str_fits ed
  | RotateCommit4 v | RotateRollback4 v => num_fits v
  | Remove4 | Query4 | Unset4 => True
  end.
Definition fits5 (r : req5) : Prop := match r with Upload5 d => str_fits d | Download5 p => str_fits p | Purge5 | Unset5 => True end.
(* bytes that can arrive *)
Definition message (s : bytes) : Prop := bytes_ok s = true /\ blen s < 2 ^ 31.
