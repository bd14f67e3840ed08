(* The group of Group.v with the SVR2 store (DB2.v) as its database. *)
From Verif Require Export Group.
From Verif Require Import DB2.

(* core.cc:1887-1902 RaftApplyLogToDatabase; [parse] is the parser of client logs
   (clientlog.proto Log2), any partial function here.  The integrity tree's verdict
   on a row (DB2.v's i_vok) is "good": nobody tampers with the rows in memory. *)
Definition apply_db2 (parse : bytes -> option log2) (db : db2) (d : bytes) : db2 * option resp2 :=
  match parse d with
  | None => (db, None)
  | Some l => match apply2 db (In2 true l) with Ret (db', r) => (db', r) | Crash => (db, None) end
  end.
