(* C41: the work queue.  Vocabulary: QueueSpec.v. *)
From Verif Require Import Queue QueueSpec QueueProofs Hist SocketSpec SocketProofs.

(* every interleaving: no crash, never over the limit, and what was taken out
   followed by what is still inside is what was put in, in order *)
Theorem C41_bounded_fifo :
  forall (T : Type) max p0 (h : list (qop T)), exists q rs, exec qstep (new_queue max p0) h = Ret (q, rs) /\
  N.of_nat (length (q_d q)) <= max /\ pushed h rs = taken rs ++ q_d q.
Proof.
  intros T max p0 h. destruct (qexec_ok h (new_queue max p0) ltac:(cbn; lia)) as [q [rs [E [H1 [H2 H3]]]]].
  exists q, rs. cbn in H2. rewrite H2 in H1. auto.
Qed.
(* full statement for flush: when a flush begun after h1 is over, all put in by h1
   has been taken out.  popped_ starts with any value. *)
Definition flush_claim : Prop :=
  forall (T : Type) max p0 (h1 h2 : list (qop T)) w q rs1 rs2, p0 < 2 ^ 64 ->
  exec qstep (new_queue max p0) (h1 ++ QFlush :: h2 ++ [QFlushed w]) = Ret (q, rs1 ++ QrFlush w :: rs2 ++ [QrFlushed]) ->
  length rs1 = length h1 -> length rs2 = length h2 ->
  prefix (pushed h1 rs1) (taken (rs1 ++ rs2)).
Theorem C41_flush_refuted : ~ flush_claim.
Proof.
  intros H. specialize (H N 3 (2 ^ 64 - 1) [QPush 7] [] 0 (Queue [7] 3 (2 ^ 64 - 1)) [QrPushed] [] eq_refl).
  destruct H as [c Hc]; [vm_compute; reflexivity|reflexivity..|]. vm_compute in Hc. discriminate.
Qed.
(* it holds as long as the counter does not overflow *)
Theorem C41_flush_partial :
  forall (T : Type) max p0 (h1 h2 : list (qop T)) w q rs1 rs2,
  p0 + N.of_nat (length (pushed (h1 ++ QFlush :: h2 ++ [QFlushed w]) (rs1 ++ QrFlush w :: rs2 ++ [QrFlushed]))) < 2 ^ 64 ->
  exec qstep (new_queue max p0) (h1 ++ QFlush :: h2 ++ [QFlushed w]) = Ret (q, rs1 ++ QrFlush w :: rs2 ++ [QrFlushed]) ->
  length rs1 = length h1 -> length rs2 = length h2 ->
  prefix (pushed h1 rs1) (taken (rs1 ++ rs2)).
Proof.
  intros T max p0 h1 h2 w q rs1 rs2 Hb E L1 L2.
  destruct (qexec_ok h1 (new_queue max p0) ltac:(cbn; lia)) as [q1 [p1 [E1 [H1 [_ H2]]]]].
  assert (Hsplit : forall (x y u v : list (qres T)), length x = length y -> x ++ u = y ++ v -> x = y /\ u = v).
  { clear. induction x as [|z x IH]; intros [|t y] u v Hl He; try discriminate; [auto|]. cbn in *. injection He as -> He.
    destruct (IH y u v ltac:(lia) He) as [-> ->]. auto. }
  assert (Hpa : forall (x : list (qop T)) y (a b : _), length x = length a -> pushed (x ++ y) (a ++ b) = pushed x a ++ pushed y b).
  { clear. induction x as [|z x IH]; intros y [|t a] b Hl; try discriminate; [reflexivity|]. cbn [app]. rewrite (pushed_cons z x t a), pushed_cons, IH by (cbn in Hl; lia). now rewrite app_assoc. }
  rewrite exec_app, E1 in E. destruct (exec qstep q1 (QFlush :: h2 ++ [QFlushed w])) as [[q2 p2]|] eqn:E2; [|discriminate].
  injection E as -> Er. pose proof (exec_length _ _ _ _ _ E1) as Lp1. apply Hsplit in Er as [-> ->]; [|lia].
  rewrite Hpa in Hb by lia. rewrite app_length in Hb.
  assert (Hq1 : q_popped q1 = p0 + N.of_nat (length (taken rs1))).
  { rewrite (qexec_popped h1 (new_queue max p0) q1 rs1); [reflexivity|cbn; lia|assumption|]. cbn [new_queue q_popped q_d length]. clear -Hb. change (2 ^ 64) with 18446744073709551616 in *. lia. }
  cbn [exec qstep] in E2. rewrite exec_app in E2. destruct (qexec_ok h2 q1 H1) as [q3 [p3 [E3 [_ [_ H4]]]]]. rewrite E3 in E2.
  cbn [exec qstep] in E2. injection E2 as _ Hw Er. pose proof (exec_length _ _ _ _ _ E3) as Lp3.
  apply Hsplit in Er as [-> Er]; [|lia]. injection Er as Er.
  rewrite pushed_cons in Hb. cbn [pushed app] in Hb. rewrite Hpa, app_length in Hb by lia.
  cbn [new_queue q_d app] in H2. assert (HL : length (pushed h1 rs1) = (length (taken rs1) + length (q_d q1))%nat) by (rewrite H2, app_length; reflexivity).
  rewrite (qexec_popped h2 q1 q3 rs2) in Er; [|assumption|assumption|rewrite Hq1; clear -Hb HL; change (2 ^ 64) with 18446744073709551616 in *; lia].
  rewrite N.mod_small in Hw by (rewrite Hq1; clear -Hb HL; change (2 ^ 64) with 18446744073709551616 in *; lia).
  rewrite taken_app, H2. destruct (w <=? q_popped q1 + N.of_nat (length (taken rs2))) eqn:El; [|discriminate].
  destruct (prefix_by_length (q_d q1) (taken rs2) (pushed h2 rs2) (q_d q3) H4 ltac:(lia)) as [e ->]. exists e. now rewrite app_assoc.
Qed.

(* limit 2, a blocked push, a flush *)
Definition x_qops : list (qop N) := [QPush 1; QPush 2; QPush 3; QFlush; QPop; QPush 3; QFlushed 2; QPop; QFlushed 2; QPop; QPop].
Example x_queue : exists q rs, exec qstep (new_queue 2 0) x_qops = Ret (q, rs) /\ q_d q = [] /\ taken rs = [1; 2; 3] /\
  rs = [QrPushed; QrPushed; QrBlocked; QrFlush 2; QrPopped 1; QrPushed; QrBlocked; QrPopped 2; QrFlushed; QrPopped 3; QrBlocked].
Proof. eexists _, _. split; [vm_compute; reflexivity|]. repeat split; vm_compute; reflexivity. Qed.

(* a push waits exactly while the queue is full, a pop exactly while it is empty *)
Theorem C41_waits_only_when_it_must :
  forall (T : Type) max p0 (h : list (qop T)) q rs, exec qstep (new_queue max p0) h = Ret (q, rs) ->
  (forall v, qstep q (QPush v) = Ret (q, QrBlocked) <-> N.of_nat (length (q_d q)) = max) /\
  (qstep q QPop = Ret (q, QrBlocked) <-> q_d q = []).
Proof.
  intros T max p0 h q rs E. destruct (qexec_ok h (new_queue max p0) ltac:(cbn; lia)) as [q' [rs' [E' [H1 [H2 _]]]]].
  rewrite E in E'. injection E' as <- <-. cbn in H2. subst max. split.
  - intros v. cbn [qstep]. destruct (N.ltb_spec (N.of_nat (length (q_d q))) (q_max q)); split; intros X; try discriminate; try lia; auto.
  - cbn [qstep]. destruct (q_d q); split; intros X; try discriminate; auto.
Qed.

Print Assumptions C41_bounded_fifo.
Print Assumptions C41_flush_refuted.
Print Assumptions C41_flush_partial.
Print Assumptions C41_waits_only_when_it_must.
