(* Vocabulary for statements about clients. *)
From Verif Require Import Client.

Section Spec.
Context {A : Type}.
Definition opens (o : cop A) : bool := match o with CNew _ _ => true | _ => false end.
(* the ids handed out, in order *)
Definition ids (rs : list (cres A)) : list N := flat_map (fun r => match r with CrNew id _ => [id] | _ => [] end) rs.
(* the ids under which connections were opened *)
Definition openings (rs : list (cres A)) : list N := flat_map (fun r => match r with CrOpening id => [id] | _ => [] end) rs.
(* whose client an id stands for after a history: the one handed out under it,
   unless it was closed since *)
Fixpoint current (id : N) (h : list (cop A)) (rs : list (cres A)) (cur : option (client A)) : option (client A) :=
  match h, rs with
  | CRemove i :: h', _ :: rs' => current id h' rs' (if i =? id then None else cur)
  | _ :: h', CrNew i c :: rs' => current id h' rs' (if i =? id then Some c else cur)
  | _ :: h', _ :: rs' => current id h' rs' cur
  | _, _ => cur
  end.
Definition closes (id : N) (o : cop A) : bool := match o with CRemove i => i =? id | _ => false end.
(* the evidence in force: that of the last refresh or rotation that took effect *)
Fixpoint in_force (rs : list (cres A)) (cur : option (attestation A)) : option (attestation A) :=
  match rs with
  | CrAttested _ a :: rs' => in_force rs' (Some a)
  | _ :: rs' => in_force rs' cur
  | [] => cur
  end.
(* rotations and refreshes one at a time: each starts only when none is running *)
Fixpoint serial (busy : bool) (h : list (cop A)) (rs : list (cres A)) : bool :=
  match h, rs with
  | CRotate _ _ :: h', r :: rs' => negb busy && serial (match r with CrStarted => true | _ => false end) h' rs'
  | CRefresh _ :: h', _ :: rs' => negb busy && serial true h' rs'
  | CEvidence _ _ :: h', CrErr :: rs' => serial false h' rs'
  | CFinish _ :: h', CrAttested _ _ :: rs' => serial false h' rs'
  | _ :: h', _ :: rs' => serial busy h' rs'
  | _, _ => true
  end%bool.
End Spec.
