(* Vocabulary for statements about the group clock. *)
From Verif Require Import GroupClock.

(* what a participant's clock said last, from the history of reports; None is
   this replica itself, whose clock starts at 0 *)
Definition about (who : option bytes) (o : cop) : option Z :=
  match who, o with
  | None, CLocal t => Some t
  | Some p, CRemote q t => if beq p q then Some t else None
  | _, _ => None
  end.
Definition last_report (h : list cop) (who : option bytes) : option Z :=
  fold_left (fun acc o => match about who o with Some t => Some t | None => acc end) h
            (match who with None => Some 0%Z | Some _ => None end).
Definition shows (h : list cop) (who : option bytes) : Z := match last_report h who with Some t => t | None => 0%Z end.

(* this replica and those of the peers asked for that have reported a time *)
Definition participants (h : list cop) (peers : list bytes) : list (option bytes) :=
  None :: filter (fun w => match last_report h w with Some _ => true | None => false end) (map Some peers).
