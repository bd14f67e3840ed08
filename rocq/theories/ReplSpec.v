(* Vocabulary for the state transfer. *)
From Verif Require Export Repl HistSpec.

(* the messages handled by the destination, and the answers handled by the source, in
   order *)
Definition handled_order (rs : list rres) : list nat :=
  flat_map (fun r => match r_handled r with Some (i, _) => [i] | None => [] end) rs.
Definition answered_order (rs : list rres) : list nat :=
  flat_map (fun r => match r_answered r with Some i => [i] | None => [] end) rs.
Definition upto (l : list nat) : Prop := l = seq 0 (length l).
(* messages from elsewhere do not carry the transfer's random id *)
Definition no_intruder (tid : N) (o : rop) : Prop := match o with RForeign p => p_tid p <> tid | _ => True end.
(* Messages and answers are handled in the order they were sent. *)
Definition in_order (tid : N) (h : list rop) (rs : list rres) : Prop :=
  upto (handled_order rs) /\ upto (answered_order rs) /\ Forall (no_intruder tid) h.
(* The source still had every entry it had not sent. *)
Definition kept_unsent (rs : list rres) : Prop := forall r o p, In r rs -> In (o, p) (r_sent r) -> o <= p_first p.

Section Spec.
Variable D : dbi.
(* the state was reached from an empty database by committed entries *)
Fixpoint apply_all (es : list entry) (db : db_state D) : outcome (db_state D) :=
  match es with [] => Ret db | e :: es' => let* db' := apply_entry D e db in apply_all es' db' end.
Definition reached (db : db_state D) : Prop := exists es, apply_all es (db_new D) = Ret db.
(* a source with something in its log *)
Definition member_state (s : src D) : Prop := reached (s_db D s) /\ l_entries (s_log D s) <> [] /\ 1 <= l_oldest (s_log D s).
(* The destination holds what the source held, at the same place in the log. *)
Definition same_at (d : dst D) (s : src D) : Prop :=
  d_db D d = s_db D s /\ last_idx (d_log D d) = last_idx (s_log D s) /\ d_mem D d = s_mem D s /\
  l_entries (d_log D d) <> [] /\
  forall i e e', at_idx (d_log D d) i = Some e -> at_idx (s_log D s) i = Some e' -> e = e'.
End Spec.
