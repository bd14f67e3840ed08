(* Vocabulary for statements about the order in which a group answers. *)
From Verif Require Import CoreTxSpec Group GroupSpec.

(* the last entry that replica k runs in what was seen *)
Definition last_ran {E} (k : bytes) (l : list (bytes * seen E)) : option N :=
  fold_left (fun acc x => match snd x with Took _ i _ _ => if beq (fst x) k then Some i else acc | _ => acc end) l None.
(* replica k answers q with a, and the last entry it had run by then is entry i *)
Definition answered_at {D E} (g : group D E) (k : bytes) (q : req) (a : say) (i : N) : Prop :=
  exists pre post, g_seen D E g = pre ++ (k, Said E q a) :: post /\ last_ran k pre = Some i.
(* entry i is run somewhere before the request q is made at k *)
Definition ran_before {D E} (g : group D E) (i : N) (k : bytes) (q : req) : Prop :=
  exists pre k1 e eff mid x post, g_seen D E g = pre ++ (k1, Took E i e eff) :: mid ++ (k, Asked E q x) :: post.
(* no replica that was put back ever led *)
Definition leaders_kept {D E} (g : group D E) : Prop :=
  forall k s A, In k (g_rolled D E g) -> gwas g k s A -> is_leader (c_node D s) = false.
