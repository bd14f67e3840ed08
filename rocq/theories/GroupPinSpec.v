(* Vocabulary for statements about the SVR2 store in a group. *)
From Verif Require Import Group DB2 DB2Spec.

(* the request that an entry of the log holds *)
Definition request (parse : bytes -> option log2) (e : entry) : option log2 :=
  match e_inner e with IData d => parse d | _ => None end.
(* the entry holds a legal Backup for this account *)
Definition sets_pin (parse : bytes -> option log2) (id : bytes) (e : entry) : Prop :=
  exists data pin t, request parse e = Some (Log2 id (Backup data pin t)) /\ legal (Log2 id (Backup data pin t)) = true.
