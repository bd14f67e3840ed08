(* Vocabulary for statements about the work queue. *)
From Verif Require Import Queue.

(* what a history put in and took out, in order, going by the answers *)
Fixpoint pushed {T} (h : list (qop T)) (rs : list (qres T)) : list T :=
  match h, rs with
  | QPush v :: h', QrPushed :: rs' => v :: pushed h' rs'
  | _ :: h', _ :: rs' => pushed h' rs'
  | _, _ => []
  end.
Definition taken {T} (rs : list (qres T)) : list T := flat_map (fun r => match r with QrPopped v => [v] | _ => [] end) rs.
