(* C39, C40: sockets.  Vocabulary: SocketSpec.v. *)
From Verif Require Import Socket SocketSpec SocketProofs UtilProofs Hist.

(* C39: however recv() splits the stream, with interruptions, and whatever the
   reused buffer holds, as many reads as there were messages return just these,
   and what follows on the stream is still there. *)
Theorem C39_messages_come_through :
  forall ms rest evs buf, Forall fits ms -> ~ In RvErr evs ->
  exists evs' buf', read_n (length ms) (RState evs (wire ms ++ rest) buf) = (map inl ms, RState evs' rest buf').
Proof. intros ms rest evs buf H1 H2. destruct (read_n_ok ms rest evs buf H1 H2) as [e [b [E _]]]. eauto. Qed.
(* a stream that ends within a message ends with an error, not with a message *)
Theorem C39_cut_off_messages_are_errors :
  forall ms m p q evs buf, Forall fits ms -> fits m -> frame m = p ++ q -> q <> [] -> ~ In RvErr evs ->
  fst (read_n (S (length ms)) (RState evs (wire ms ++ p) buf)) = map inl ms ++ [inr Sock_ReadEOF].
Proof.
  intros ms m p q evs buf Hms Hm E Hq Hn. revert evs buf Hn. induction Hms as [|m0 ms Hm0 Hms IH]; intros evs buf Hn.
  - cbn [length read_n wire flat_map app map]. destruct (read_pb_partial m p q evs buf Hm E Hq Hn) as [r' ->]. reflexivity.
  - cbn [length wire flat_map map]. rewrite <- app_assoc. fold (wire ms).
    destruct (read_pb_ok m0 (wire ms ++ p) evs buf Hm0 Hn) as [e1 [b1 [E1 Hn1]]].
    specialize (IH e1 b1 Hn1). remember (S (length ms)) as k. cbn [read_n]. rewrite E1. destruct (read_n k _) as [l r] eqn:Ek. cbn in *. now rewrite IH.
Qed.
Theorem C39_oversized_prefix_rejected :
  forall n rest evs buf, INT32_MAX < n -> n < 2 ^ 32 -> ~ In RvErr evs ->
  exists evs', read_pb (RState evs (be32 n ++ rest) buf) = (inr Sock_ReadTooBig, RState evs' rest buf).
Proof. exact read_pb_too_big. Qed.

(* C40: for every interleaving of writers, the sending thread and flushes.  The
   queue does not crash; what is sent is at any time the beginning of the accepted
   messages, whole and in order; and if the socket did not fail the remainder is
   waiting in the buffers, so nothing is lost. *)
Theorem C40_sent_in_order_nothing_lost :
  forall h, exists q rs, exec wstep empty_wqueue h = Ret (q, rs) /\
  prefix (w_sent q) (wire (written h)) /\
  (~ In WSendErr h -> w_sent q ++ unsent q = wire (written h)).
Proof.
  intros h. destruct (wexec_ok h empty_wqueue eq_refl) as [q [rs [E [_ [Ha [Hc _]]]]]]. exists q, rs. split; [assumption|].
  destruct (Hc ltac:(discriminate)) as [c Hc']. split; [exists c; exact Hc'|]. intros Hn.
  apply Ha. eapply alive_exec; eauto. discriminate.
Qed.
(* a flush that was started after h1 and finishes after h2 finds all of h1 sent *)
Theorem C40_flush_means_sent :
  forall h1 wait_for h2 q rs1 rs2, ~ In WSendErr h1 ->
  exec wstep empty_wqueue (h1 ++ WFlush :: h2 ++ [WFlushed wait_for]) = Ret (q, rs1 ++ WrFlush wait_for :: rs2 ++ [WrFlushed true]) ->
  length rs1 = length h1 -> length rs2 = length h2 ->
  prefix (wire (written h1)) (w_sent q).
Proof.
  intros h1 wf h2 q rs1 rs2 Hn E L1 L2.
  destruct (C40_sent_in_order_nothing_lost h1) as [q1 [p1 [E1 [_ Hs1]]]]. specialize (Hs1 Hn).
  destruct (wexec_ok h1 empty_wqueue eq_refl) as [q1' [p1' [E1' [Hok1 [Ha1 _]]]]]. rewrite E1 in E1'. injection E1' as <- <-.
  destruct (C40_sent_in_order_nothing_lost (h1 ++ WFlush :: h2 ++ [WFlushed wf])) as [q' [rs' [E' [[c Hpre] _]]]]. rewrite E in E'. injection E' as <- _.
  assert (Hsplit : forall (x y u v : list wres), length x = length y -> x ++ u = y ++ v -> x = y /\ u = v).
  { clear. induction x as [|z x IH]; intros [|w y] u v Hl He; try discriminate; [auto|]. cbn in *. injection He as -> He.
    destruct (IH y u v ltac:(lia) He) as [-> ->]. auto. }
  rewrite exec_app, E1 in E. destruct (exec wstep q1 (WFlush :: h2 ++ [WFlushed wf])) as [[q2 p2]|] eqn:E2; [|discriminate].
  injection E as -> Er. pose proof (exec_length _ _ _ _ _ E1) as Lp1. apply Hsplit in Er as [-> ->]; [|lia].
  cbn [exec] in E2. destruct (wstep q1 WFlush) as [[q3 r3]|] eqn:E3; [|discriminate].
  rewrite exec_app in E2. destruct (exec wstep q3 h2) as [[q4 p4]|] eqn:E4; [|discriminate].
  destruct (exec wstep q4 [WFlushed wf]) as [[q5 p5]|] eqn:E5; [|discriminate].
  injection E2 as -> Er2 Er3. subst r3. pose proof (exec_length _ _ _ _ _ E4) as Lp4. apply Hsplit in Er3 as [-> ->]; [|lia].
  cbn in E5. injection E5 as <- E5. assert (q3 = q1) by (cbn in E3; congruence). subst q3.
  assert (Hd1 : w_phase q1 <> WDead) by (eapply alive_exec; eauto; discriminate).
  pose proof (flush_start q1 wf Hok1 Hd1 E3) as Hf. apply (flush_exec _ _ _ _ _ _ Hf) in E4. destruct E4 as [Hf1 _].
  rewrite Hs1 in Hf1. unfold written in Hpre. rewrite flat_map_app in Hpre. fold (written h1) in Hpre. rewrite wire_app in Hpre.
  eapply prefix_by_length; [exact Hpre|]. apply Hf1. lia.
Qed.

(* and a flush never waits for ever: from any state the sending thread gets there
   by sending what is in the two buffers *)
Theorem C40_flush_completes :
  forall h q rs wait_for, ~ In WSendErr h ->
  exec wstep empty_wqueue (h ++ [WFlush]) = Ret (q, rs) -> last rs WrOK = WrFlush wait_for ->
  exists n m q' rs', exec wstep q ([WSend n; WDone; WTake; WSend m; WDone] ++ [WFlushed wait_for]) = Ret (q', rs') /\ last rs' WrOK = WrFlushed true.
Proof.
  intros h q rs wf Hn E Hl. destruct (wexec_ok h empty_wqueue eq_refl) as [q1 [p1 [E1 [Hok1 _]]]].
  rewrite exec_app, E1 in E. cbn [exec] in E. destruct (wstep q1 WFlush) as [[q2 r2]|] eqn:E2; [|discriminate].
  injection E as <- <-. rewrite last_last in Hl. subst r2. cbn in E2. injection E2 as <- <-.
  assert (Hd : w_phase q1 <> WDead) by (eapply alive_exec; eauto; discriminate).
  exists (length (w_get q1 (negb (w_cur q1)))), (length (w_get q1 (w_cur q1))).
  destruct (drain_sending q1 (length (w_get q1 (negb (w_cur q1)))) Hok1 Hd) as [q2 [rs2 [E2 [Hi2 [Hc2 [Ho2 Hw2]]]]]]; [lia|].
  destruct (drain_idle q2 (length (w_get q1 (w_cur q1))) Hi2 Ho2) as [q3 [rs3 [E3 Hw3]]]; [rewrite Hc2; lia|].
  change ([WSend (length (w_get q1 (negb (w_cur q1)))); WDone; WTake; WSend (length (w_get q1 (w_cur q1))); WDone])
    with ([WSend (length (w_get q1 (negb (w_cur q1)))); WDone] ++ [WTake; WSend (length (w_get q1 (w_cur q1))); WDone]).
  rewrite <- app_assoc. set (tail := [WFlushed _]). rewrite exec_app, E2, exec_app, E3. subst tail. cbn [exec wstep]. eexists _, _. split; [reflexivity|].
  rewrite !app_assoc, last_last. f_equal. rewrite Hc2 in Hw3. unfold blen in *. apply N.leb_le.
  assert (Hz : N.of_nat (length (w_get q1 (negb (w_cur q1)))) = 0 -> w_get q1 (negb (w_cur q1)) = []) by (destruct (w_get q1 (negb (w_cur q1))); [auto|cbn; lia]).
  destruct (N.of_nat (length (w_get q1 (w_cur q1))) =? 0) eqn:Ea, (N.of_nat (length (w_get q1 (negb (w_cur q1)))) =? 0) eqn:Eb;
    rewrite Hw3, Hw2; destruct (w_phase q1) eqn:Ep; try lia; unfold wok in Hok1; rewrite Ep in Hok1; rewrite Hok1 in Eb; discriminate.
Qed.

(* three messages, the last one written while the first two are being sent in pieces *)
Definition x_wops : list wop :=
  [WWrite [1; 2]; WWrite []; WTake; WSend 3; WWrite [3]; WFlush; WFlushed 2; WSend 0; WSend 100; WDone; WFlushed 2; WTake; WSend 100; WDone; WFlushed 2].
Example x_wqueue : exists q rs, exec wstep empty_wqueue x_wops = Ret (q, rs) /\ w_sent q = wire [[1; 2]; []; [3]] /\
  rs = [WrOK; WrOK; WrOK; WrOK; WrOK; WrFlush 2; WrFlushed false; WrOK; WrOK; WrOK; WrFlushed false; WrOK; WrOK; WrOK; WrFlushed true].
Proof. eexists _, _. split; [vm_compute; reflexivity|]. split; vm_compute; reflexivity. Qed.
Example x_read : exists r, read_n 3 (RState [RvGot 1; RvIntr; RvGot 5; RvGot 0] (wire [[1; 2; 3]; []] ++ [0; 0]) [9; 9; 9; 9; 9]) = ([inl [1; 2; 3]; inl []; inr Sock_ReadEOF], r)
  /\ Forall fits [[1; 2; 3]; []].
Proof. eexists. split; [vm_compute; reflexivity|]. repeat constructor; vm_compute; discriminate. Qed.

(* a write says whether it took the message *)
Theorem C40_answers_of_writes :
  forall q m q' r, wstep q (WWrite m) = Ret (q', r) -> (r = WrOK <-> written [WWrite m] = [m]) /\ (r = WrTooBig <-> written [WWrite m] = []).
Proof.
  intros q m q' r E. cbn [wstep] in E. unfold written. cbn [flat_map]. destruct (INT32_MAX <? blen m); inversion E; subst; cbn; split; split; congruence.
Qed.

Print Assumptions C39_messages_come_through.
Print Assumptions C39_cut_off_messages_are_errors.
Print Assumptions C39_oversized_prefix_rejected.
Print Assumptions C40_sent_in_order_nothing_lost.
Print Assumptions C40_flush_means_sent.
Print Assumptions C40_flush_completes.
Print Assumptions C40_answers_of_writes.
