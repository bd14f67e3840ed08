(* The group of Group.v with each of the stores as its database (GroupPin.v has SVR2's):
   core.cc:1887-1902 RaftApplyLogToDatabase, with the parsers of ReqWire.v. *)
From Verif Require Export Group GroupPin ReqWire.
From Verif Require Import DB2 DB3 DB4 DB5.

Definition apply_db {Db L Ef} (parse : bytes -> option L) (run : Db -> L -> outcome (Db * option Ef)) (db : Db) (d : bytes) : Db * option Ef :=
  match parse d with
  | None => (db, None)
  | Some l => match run db l with Ret (db', r) => (db', r) | Crash => (db, None) end
  end.
Definition apply_db3 smul := apply_db parse_log3 (fun db l => apply3 smul db (In3 true l)).
Definition apply_db4 (c : crypto4) := apply_db parse_log4 (fun db l => apply4 c db (In4 true l)).
Definition apply_db5 hmac := apply_db parse_log5 (fun db l => apply5 hmac db (In5 true l)).
