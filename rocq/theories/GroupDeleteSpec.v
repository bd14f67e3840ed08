(* Vocabulary: a request has removed an account from a group's database. *)
From Verif Require Export GroupSpec GroupDelete.
From Verif Require Import DB2 DB2Spec DB3 DB4 DB4Spec DB5.

(* The entry d has an index i in the log, k has run it there, and since then, as long as
   no entry brings the account back: no database holds it, and each entry run finds a
   database that does not hold it. *)
Definition removed_by {D E} (apply : D -> bytes -> D * option E) (g : group D E) (k d : bytes) (gone : D -> Prop) (brings_back : entry -> Prop) : Prop :=
  exists i e0 eff0, saw g k (Took E i e0 eff0) /\ e_inner e0 = IData d /\
    (forall k' s A, gwas g k' s A -> i <= n_applied (c_node D s) ->
       (forall k2 j e eff, saw g k2 (Took E j e eff) -> i < j -> j <= n_applied (c_node D s) -> ~ brings_back e) -> gone (c_db D s)) /\
    (forall k' j e eff, saw g k' (Took E j e eff) -> i < j ->
       (forall k2 j2 e2 eff2, saw g k2 (Took E j2 e2 eff2) -> i < j2 -> j2 < j -> ~ brings_back e2) ->
       exists db, gone db /\ eff = snd (run_one apply db e)).
(* the host asks replica k, in q, to run the request for the user [id]; q is answered "done" *)
Definition host_told_done {D E} (g : group D E) (host_entry : bytes -> bytes -> option bytes) (id request : bytes) (k d : bytes) : Prop :=
  host_entry id request = Some d /\ exists q, q_by q = AHost /\ saw g k (Asked E q (IData d)) /\ saw g k (Said E q SDone).
(* the entry holds a request that makes the account *)
Definition carries {L} (parse : bytes -> option L) (e : entry) (l : L) : Prop := exists d, e_inner e = IData d /\ parse d = Some l.
Definition makes2 (id : bytes) (e : entry) : Prop := exists data pin t, carries parse_log2 e (Log2 id (Backup data pin t)).
Definition makes3 (id : bytes) (e : entry) : Prop := exists t x k, carries parse_log3 e (Log3 id (Create3 t x) k).
Definition makes4 (id : bytes) (e : entry) : Prop := exists t o a n z v, carries parse_log4 e (Log4 id (Create4 t o a n z v)).
Definition makes5 (id : bytes) (e : entry) : Prop := exists d, carries parse_log5 e (Log5 id (Upload5 d)).
