(* The four databases as replicated by the state transfer (Repl.v). *)
From Verif Require Export Repl DB2 DB3 DB4 DB5.

(* [parse]: LogPB()->ParseFromString of a log of the database (db2.cc:48-51 and the
   same in db3.cc, db4.cc and db5.cc).  Merkle checks pass: memory is intact. *)
Definition drop_resp {S R} (r : outcome (S * R)) : outcome S := let* '(s, _) := r in Ret s.
(* db2.h *)
Definition dbi2 (parse : bytes -> option log2) : dbi :=
  DBI db2 log2 [] parse l_id (fun l => is_ok (validate2 l)) (fun s l => drop_resp (run2 s true l)) rows_as_protos2 load_rows2 max_row_size2.
(* db3.h; [smul]: scalar multiplication *)
Definition dbi3 (smul : bytes -> bytes -> option bytes) (parse : bytes -> option log3) : dbi :=
  DBI db3 log3 [] parse l3_id (fun l => is_ok (validate3 l)) (fun s l => drop_resp (run3 smul s true l)) rows_as_protos3 load_rows3 max_row_size3.
(* db4.h *)
Definition dbi4 (c : crypto4) (parse : bytes -> option log4) : dbi :=
  DBI db4 log4 empty4 parse l4_id (fun l => is_ok (validate4 c l)) (fun s l => drop_resp (run4 c s true l)) rows_as_protos4 (load_rows4 c) max_row_size4.
(* db5.h *)
Definition dbi5 (hmac : bytes -> bytes -> bytes) (parse : bytes -> option log5) : dbi :=
  DBI db5 log5 [] parse l5_id (fun l => is_ok (validate5 l)) (fun s l => drop_resp (run5 hmac s true l)) rows_as_protos5 load_rows5 max_row_size5.
