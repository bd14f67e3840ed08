From Verif Require Import Queue QueueSpec Hist.

Section P.
Context {T : Type}.
Implicit Types q : queue T.

Lemma qstep_ok q o : N.of_nat (length (q_d q)) <= q_max q -> exists q' r, qstep q o = Ret (q', r) /\
  N.of_nat (length (q_d q')) <= q_max q' /\ q_max q' = q_max q /\ q_d q ++ pushed [o] [r] = taken [r] ++ q_d q' /\
  q_popped q' = (if match r with QrPopped _ => true | _ => false end then (q_popped q + 1) mod 2 ^ 64 else q_popped q).
Proof.
  intros H. destruct o as [v| | |w]; cbn [qstep].
  - destruct (N.of_nat (length (q_d q)) <? q_max q) eqn:E; eexists _, _; (split; [reflexivity|]); cbn; rewrite ?app_length, ?app_nil_r; cbn; repeat split; lia.
  - destruct (q_d q) as [|x d] eqn:E; eexists _, _; (split; [reflexivity|]); cbn; rewrite ?E, ?app_nil_r; cbn in *; repeat split; lia.
  - eexists _, _. split; [reflexivity|]. cbn. rewrite app_nil_r. auto.
  - eexists _, _. split; [reflexivity|]. cbn. destruct (w <=? q_popped q); cbn; rewrite app_nil_r; auto.
Qed.
Lemma pushed_cons o h (r : qres T) rs : pushed (o :: h) (r :: rs) = pushed [o] [r] ++ pushed h rs.
Proof. destruct o, r; reflexivity. Qed.
Lemma taken_cons (r : qres T) rs : taken (r :: rs) = taken [r] ++ taken rs.
Proof. unfold taken. cbn. now rewrite app_nil_r. Qed.
Lemma taken_app (a b : list (qres T)) : taken (a ++ b) = taken a ++ taken b.
Proof. unfold taken. apply flat_map_app. Qed.

Lemma qexec_ok h : forall q, N.of_nat (length (q_d q)) <= q_max q -> exists q' rs, exec qstep q h = Ret (q', rs) /\
  N.of_nat (length (q_d q')) <= q_max q' /\ q_max q' = q_max q /\ q_d q ++ pushed h rs = taken rs ++ q_d q'.
Proof.
  induction h as [|o h IH]; intros q Hq; [exists q, []; cbn; rewrite app_nil_r; auto|].
  destruct (qstep_ok q o Hq) as [q1 [r [E1 [H1 [H2 [H3 _]]]]]]. destruct (IH q1 H1) as [q2 [rs [E2 [H4 [H5 H6]]]]].
  exists q2, (r :: rs). cbn [exec]. rewrite E1, E2. split; [reflexivity|]. split; [assumption|]. split; [congruence|].
  rewrite pushed_cons, taken_cons, app_assoc, H3, <- !app_assoc, H6. reflexivity.
Qed.
(* pops count up while the counter does not wrap *)
Lemma qexec_popped h : forall q q' rs, N.of_nat (length (q_d q)) <= q_max q -> exec qstep q h = Ret (q', rs) ->
  q_popped q + N.of_nat (length (q_d q) + length (pushed h rs)) < 2 ^ 64 -> q_popped q' = q_popped q + N.of_nat (length (taken rs)).
Proof.
  induction h as [|o h IH]; intros q q' rs Hq E Hb; cbn in E; [injection E as <- <-; cbn; lia|].
  destruct (qstep_ok q o Hq) as [q1 [r [E1 [H1 [H2 [H3 H4]]]]]]. rewrite E1 in E.
  destruct (exec qstep q1 h) as [[q2 rs2]|] eqn:E2; [|discriminate]. injection E as <- <-.
  rewrite pushed_cons, app_length in Hb. rewrite taken_cons, app_length.
  assert (HL : (length (q_d q) + length (pushed [o] [r]) = length (taken [r]) + length (q_d q1))%nat) by (rewrite <- !app_length; congruence).
  assert (Hp : q_popped q1 = q_popped q + N.of_nat (length (taken [r]))).
  { rewrite H4. destruct r; cbn; try lia. apply N.mod_small. change (length (taken [QrPopped v])) with 1%nat in HL. clear -Hb HL. change (2 ^ 64) with 18446744073709551616 in *. lia. }
  rewrite (IH q1 q2 rs2 H1 E2); [lia|]. rewrite Hp. clear -Hb HL. change (2 ^ 64) with 18446744073709551616 in *. lia.
Qed.
End P.
