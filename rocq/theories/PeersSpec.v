(* Vocabulary for statements about links between enclaves. *)
From Verif Require Import Peers HistSpec.

Section Spec.
Context {E V L : Type} (attest : Z -> E -> option (bytes * V)) (check : L -> V -> bool).

(* the clock and the limits after a history *)
Definition time_after (h : list (pop E L)) : Z := fold_left (fun t o => match o with PTime t' => t' | _ => t end) h 0%Z.
Definition limits_after (l0 : L) (h : list (pop E L)) : L := fold_left (fun l o => match o with PLimits l' => l' | _ => l end) h l0.
(* the limits have not been changed, or not since MinimumsUpdated was last called *)
Definition mins_called (h : list (pop E L)) : bool :=
  fold_left (fun b o => match o with PLimits _ => false | PMins => true | _ => b end) h true.
(* what takes a link down, or starts over *)
Definition closes (id : bytes) (o : pop E L) : bool :=
  match o with
  | PRst i | PReset i | PConnect i false _ | PLock i KSyn | PLock i KSynack => beq i id
  | _ => false
  end.

(* evidence for the key that is the peer's id was good at the time t, and the values
   in it met the limits *)
Definition good_evidence (l0 : L) (h : list (pop E L)) (id : bytes) (k : kind) (ev : E) (t : Z) (v : V) (after : list (pop E L)) : Prop :=
  exists h1 h2, h = h1 ++ PLock id k :: h2 ++ PCheck id ev :: after /\
  t = time_after h1 /\ attest t ev = Some (id, v) /\ check (limits_after l0 (h1 ++ PLock id k :: h2)) v = true.
(* the peer showed such evidence with a handshake that was then completed, and the
   link was not taken down since *)
Definition established (l0 : L) (h : list (pop E L)) (id : bytes) : Prop :=
  exists k ev t v h3 h4, k <> KUpdate /\ good_evidence l0 h id k ev t v (h3 ++ PDone id true :: h4) /\ none_of (closes id) h4.
End Spec.
