From Verif Require Import Socket SocketSpec UtilProofs Hist.

(* --- reading -------------------------------------------------------------- *)
Lemma read_all_ok evs : forall d rest, ~ In RvErr evs -> exists evs', read_all evs (d ++ rest) (length d) = (inl d, evs', rest) /\ ~ In RvErr evs'.
Proof.
  induction evs as [|e evs IH]; intros d rest Hn.
  - destruct d as [|x d]; [exists []; auto|]. exists []. split; [|auto]. cbn [read_all length].
    rewrite (proj2 (Nat.leb_le _ _)) by (rewrite app_length; cbn; lia).
    change (S (length d)) with (length (x :: d)). rewrite firstn_app, Nat.sub_diag, firstn_all, firstn_O, app_nil_r.
    rewrite skipn_app, Nat.sub_diag, skipn_all. reflexivity.
  - assert (Hn' : ~ In RvErr evs) by (intros H; apply Hn; now right).
    destruct d as [|x d]; [exists (e :: evs); auto|]. destruct e as [n| |]; [| |exfalso; apply Hn; now left].
    + cbn [read_all length app]. set (k := Nat.min _ _).
      assert (Hk : (1 <= k <= S (length d))%nat) by (subst k; lia).
      destruct (IH (skipn k (x :: d)) rest Hn') as [evs' [E He]].
      replace (skipn k (x :: d ++ rest)) with (skipn k (x :: d) ++ rest).
      2: { change (x :: d ++ rest) with ((x :: d) ++ rest). rewrite skipn_app. replace (k - length (x :: d))%nat with O by (cbn; lia). reflexivity. }
      replace (S (length d) - k)%nat with (length (skipn k (x :: d))) by (rewrite skipn_length; cbn; lia).
      rewrite E. exists evs'. split; [|assumption].
      replace (firstn k (x :: d ++ rest)) with (firstn k (x :: d)).
      2: { change (x :: d ++ rest) with ((x :: d) ++ rest). rewrite firstn_app. replace (k - length (x :: d))%nat with O by (cbn; lia). now rewrite firstn_O, app_nil_r. }
      now rewrite firstn_skipn.
    + cbn [read_all length]. change (S (length d)) with (length (x :: d)). apply (IH (x :: d) rest Hn').
Qed.
Lemma read_all_short evs : forall s size, ~ In RvErr evs -> (length s < size)%nat -> exists evs' s', read_all evs s size = (inr Sock_ReadEOF, evs', s').
Proof.
  induction evs as [|e evs IH]; intros s size Hn Hs.
  - destruct size; [lia|]. cbn [read_all]. rewrite (proj2 (Nat.leb_gt _ _)) by lia. eauto.
  - assert (Hn' : ~ In RvErr evs) by (intros H; apply Hn; now right). destruct size as [|size]; [lia|].
    destruct e as [n| |]; [| |exfalso; apply Hn; now left].
    + cbn [read_all]. destruct s as [|x s]; [eauto|]. set (k := Nat.min _ _). assert (Hx : length (x :: s) = S (length s)) by reflexivity. assert (1 <= k <= length (x :: s))%nat by (subst k; lia).
      destruct (IH (skipn k (x :: s)) (S size - k)%nat Hn') as [e' [s' ->]]; [rewrite skipn_length; lia|]. eauto.
    + cbn [read_all]. apply IH; auto.
Qed.

Lemma read_pb_ok m rest evs buf : fits m -> ~ In RvErr evs -> exists evs' buf',
  read_pb (RState evs (frame m ++ rest) buf) = (inl m, RState evs' rest buf') /\ ~ In RvErr evs'.
Proof.
  intros Hm Hn. unfold read_pb, frame, fits, INT32_MAX in *. cbn [r_evs r_stream r_buf]. rewrite <- app_assoc.
  destruct (read_all_ok evs (be32 (blen m)) (m ++ rest) Hn) as [evs1 [E1 Hn1]]. change (length (be32 (blen m))) with 4%nat in E1. rewrite E1.
  pose proof (be32_roundtrip (blen m) [] ltac:(change (2 ^ 32) with 4294967296; change (2 ^ 31 - 1) with 2147483647 in Hm; lia)) as Hr.
  rewrite app_nil_r in Hr. rewrite Hr.
  destruct (2 ^ 31 - 1 <? blen m) eqn:E2; [apply N.ltb_lt in E2; exfalso; apply (N.lt_irrefl (blen m)); eapply N.le_lt_trans; eauto|].
  unfold blen at 2. rewrite Nat2N.id. destruct (read_all_ok evs1 m rest Hn1) as [evs2 [E3 Hn2]].
  assert (Hid : N.to_nat (blen m) = length m) by (unfold blen; lia). rewrite !Hid, E3.
  eexists evs2, _. split; [|assumption]. rewrite firstn_app, Nat.sub_diag, firstn_all, firstn_O, app_nil_r. reflexivity.
Qed.
Lemma read_n_ok ms : forall rest evs buf, Forall fits ms -> ~ In RvErr evs -> exists evs' buf',
  read_n (length ms) (RState evs (wire ms ++ rest) buf) = (map inl ms, RState evs' rest buf') /\ ~ In RvErr evs'.
Proof.
  induction ms as [|m ms IH]; intros rest evs buf Hf Hn; [exists evs, buf; auto|].
  inversion Hf as [|? ? Hm Hms]; subst. cbn [length read_n wire flat_map map]. rewrite <- app_assoc. fold (wire ms).
  destruct (read_pb_ok m (wire ms ++ rest) evs buf Hm Hn) as [e1 [b1 [-> Hn1]]].
  destruct (IH rest e1 b1 Hms Hn1) as [e2 [b2 [-> Hn2]]]. eauto.
Qed.
Lemma read_pb_partial m p q evs buf : fits m -> frame m = p ++ q -> q <> [] -> ~ In RvErr evs ->
  exists r', read_pb (RState evs p buf) = (inr Sock_ReadEOF, r').
Proof.
  intros Hm E Hq Hn. unfold read_pb. cbn [r_evs r_stream r_buf]. destruct (Nat.lt_ge_cases (length p) 4) as [Hl|Hl].
  - destruct (read_all_short evs p 4 Hn Hl) as [e1 [s1 ->]]. eauto.
  - assert (Hp : exists p', p = be32 (blen m) ++ p' /\ m = p' ++ q).
    { unfold frame in E. exists (skipn 4 p). assert (H : firstn 4 p = be32 (blen m)).
      { apply (f_equal (firstn 4)) in E. rewrite !firstn_app in E. replace (4 - length p)%nat with O in E by lia.
        rewrite (firstn_O q), (app_nil_r (firstn 4 p)) in E. rewrite <- E. reflexivity. }
      rewrite <- H. split; [now rewrite firstn_skipn|]. apply (f_equal (skipn 4)) in E. rewrite !skipn_app in E.
      replace (4 - length p)%nat with O in E by lia. exact E. }
    destruct Hp as [p' [-> Hm']]. destruct (read_all_ok evs (be32 (blen m)) p' Hn) as [e1 [E1 Hn1]].
    change (length (be32 (blen m))) with 4%nat in E1. rewrite E1. unfold fits, INT32_MAX in *.
    pose proof (be32_roundtrip (blen m) [] ltac:(change (2 ^ 32) with 4294967296; change (2 ^ 31 - 1) with 2147483647 in Hm; lia)) as Hr.
    rewrite app_nil_r in Hr. rewrite Hr.
    destruct (2 ^ 31 - 1 <? blen m) eqn:E2; [apply N.ltb_lt in E2; exfalso; apply (N.lt_irrefl (blen m)); eapply N.le_lt_trans; eauto|].
    destruct (read_all_short e1 p' (N.to_nat (blen m)) Hn1) as [e2 [s2 ->]]; [|eauto].
    unfold blen. rewrite Nat2N.id, Hm', app_length. destruct q; [contradiction|cbn; lia].
Qed.
Lemma read_pb_too_big n rest evs buf : INT32_MAX < n -> n < 2 ^ 32 -> ~ In RvErr evs -> exists evs',
  read_pb (RState evs (be32 n ++ rest) buf) = (inr Sock_ReadTooBig, RState evs' rest buf).
Proof.
  intros H1 H2 Hn. unfold read_pb. cbn [r_evs r_stream r_buf].
  destruct (read_all_ok evs (be32 n) rest Hn) as [e1 [E1 _]]. change (length (be32 n)) with 4%nat in E1. rewrite E1.
  pose proof (be32_roundtrip n [] H2) as Hr. rewrite app_nil_r in Hr. rewrite Hr.
  apply N.ltb_lt in H1. rewrite H1. eauto.
Qed.

(* --- writing -------------------------------------------------------------- *)
(* the buffer that is not current is empty unless it is being sent, and then it
   ends with what is left to send; after a socket error nothing is promised *)
Definition wok (q : wqueue) : Prop :=
  match w_phase q with
  | WIdle => w_get q (negb (w_cur q)) = []
  | WSending r => exists a, w_get q (negb (w_cur q)) = a ++ r /\ a ++ r <> []
  | WDead => True
  end.
Lemma get_put_same q b v c p w s : w_get (WQueue (w_put q b v) c p w s) b = v.
Proof. unfold w_get, w_put. destruct b; reflexivity. Qed.
Lemma get_put_other q b v c p w s : w_get (WQueue (w_put q b v) c p w s) (negb b) = w_get q (negb b).
Proof. unfold w_get, w_put. destruct b; reflexivity. Qed.
Lemma get_put_other' q b v c p w s : w_get (WQueue (w_put q (negb b) v) c p w s) b = w_get q b.
Proof. unfold w_get, w_put. destruct b; reflexivity. Qed.

Lemma wstep_ok q o : wok q -> exists q' r, wstep q o = Ret (q', r) /\ wok q' /\
  (w_phase q' = WDead -> w_phase q = WDead \/ o = WSendErr) /\
  (w_phase q' <> WDead -> w_phase q <> WDead /\ w_sent q' ++ unsent q' = (w_sent q ++ unsent q) ++ wire (written [o])) /\
  (w_phase q = WDead -> w_phase q' = WDead /\ w_sent q' = w_sent q) /\
  (o = WSendErr -> w_sent q' = w_sent q).
Proof.
  intros Hok. destruct o as [m| |n| | | |w]; cbn [wstep].
  - unfold written; cbn [flat_map]. destruct (INT32_MAX <? blen m) eqn:E.
    + exists q, WrTooBig. cbn. rewrite app_nil_r. repeat split; auto; discriminate.
    + eexists _, _. split; [reflexivity|]. cbn [w_phase w_sent]. split; [|split; [auto|split; [|split; [auto|discriminate]]]].
      * unfold wok in *. cbn [w_phase w_cur]. rewrite get_put_other. exact Hok.
      * intros Hd. split; [assumption|]. unfold unsent. cbn [w_phase w_cur]. rewrite get_put_same. cbn. rewrite app_nil_r.
        destruct (w_phase q); rewrite <- ?app_assoc; reflexivity.
  - cbn. unfold wok in Hok. destruct (w_phase q) eqn:Ep.
    + destruct (w_get q (w_cur q)) as [|x b] eqn:Eb.
      * exists q, WrBlocked. unfold wok. rewrite Ep, app_nil_r. repeat split; auto; discriminate.
      * rewrite Hok. eexists _, _. split; [reflexivity|]. unfold wok, unsent. cbn [w_phase w_cur w_sent]. rewrite Ep, negb_involutive.
        repeat split; auto; try discriminate.
        -- exists []. unfold w_get in *. cbn [w_bufs]. rewrite Eb. split; [reflexivity|discriminate].
        -- unfold w_get in *. cbn [w_bufs w_cur]. rewrite Hok, Eb. now rewrite !app_nil_r.
    + exists q, WrBlocked. unfold wok. rewrite Ep, app_nil_r. repeat split; auto; discriminate.
    + exists q, WrBlocked. unfold wok. rewrite Ep, app_nil_r. repeat split; auto; congruence.
  - cbn. unfold wok in Hok. destruct (w_phase q) as [|[|x r]|] eqn:Ep;
      [exists q, WrBlocked; unfold wok; rewrite Ep, app_nil_r; repeat split; auto; discriminate..| |
       exists q, WrBlocked; unfold wok; rewrite Ep, app_nil_r; repeat split; auto; congruence].
    eexists _, _. split; [reflexivity|]. unfold wok, unsent. cbn [w_phase w_cur w_sent]. rewrite Ep. destruct Hok as [a [Ha Hne]].
    repeat split; auto; try discriminate.
    + exists (a ++ firstn n (x :: r)). unfold w_get in *. cbn [w_bufs]. rewrite <- app_assoc, firstn_skipn. auto.
    + rewrite app_nil_r. unfold w_get. cbn [w_bufs]. rewrite <- app_assoc. f_equal. rewrite app_assoc, firstn_skipn. reflexivity.
  - cbn. unfold wok in Hok. destruct (w_phase q) as [|[|x r]|] eqn:Ep;
      [exists q, WrBlocked; unfold wok; rewrite Ep, app_nil_r; repeat split; auto; discriminate..| |
       exists q, WrBlocked; unfold wok; rewrite Ep, app_nil_r; repeat split; auto; congruence].
    eexists _, _. split; [reflexivity|]. unfold wok. cbn. repeat split; auto; congruence.
  - cbn. unfold wok in Hok. destruct (w_phase q) as [|[|x r]|] eqn:Ep;
      [exists q, WrBlocked; unfold wok; rewrite Ep, app_nil_r; repeat split; auto; discriminate| |
       exists q, WrBlocked; unfold wok; rewrite Ep, app_nil_r; repeat split; auto; discriminate|
       exists q, WrBlocked; unfold wok; rewrite Ep, app_nil_r; repeat split; auto; congruence].
    eexists _, _. split; [reflexivity|]. unfold wok, unsent. cbn [w_phase w_cur w_sent]. rewrite Ep, get_put_same, get_put_other'.
    rewrite app_nil_r. repeat split; auto; discriminate.
  - eexists _, _. split; [reflexivity|]. cbn. rewrite app_nil_r. repeat split; auto; discriminate.
  - eexists _, _. split; [reflexivity|]. cbn. rewrite app_nil_r. repeat split; auto; discriminate.
Qed.

Lemma wire_app a b : wire (a ++ b) = wire a ++ wire b.
Proof. unfold wire. now rewrite flat_map_app. Qed.
Lemma written_cons o h : written (o :: h) = written [o] ++ written h.
Proof. unfold written. cbn. now rewrite app_nil_r. Qed.

(* alive: everything accepted is sent or still queued, in order *)
Lemma wexec_ok h : forall q, wok q -> exists q' rs, exec wstep q h = Ret (q', rs) /\ wok q' /\
  (w_phase q' <> WDead -> w_phase q <> WDead /\ w_sent q' ++ unsent q' = (w_sent q ++ unsent q) ++ wire (written h)) /\
  (w_phase q <> WDead -> exists c, (w_sent q ++ unsent q) ++ wire (written h) = w_sent q' ++ c) /\
  (w_phase q = WDead -> w_phase q' = WDead /\ w_sent q' = w_sent q).
Proof.
  induction h as [|o h IH]; intros q Hok.
  - exists q, []. split; [reflexivity|]. split; [assumption|]. cbn. rewrite app_nil_r. split; [auto|]. split; [|auto].
    intros _. eexists. reflexivity.
  - destruct (wstep_ok q o Hok) as [q1 [r [E1 [Hok1 [Hd1 [Ha1 [Hdd1 He1]]]]]]]. destruct (IH q1 Hok1) as [q2 [rs [E2 [Hok2 [Ha2 [Hc2 Hd2]]]]]].
    exists q2, (r :: rs). cbn [exec]. rewrite E1, E2. split; [reflexivity|]. split; [assumption|].
    rewrite written_cons, wire_app. split; [|split].
    + intros Hn. destruct (Ha2 Hn) as [Hn1 H2]. destruct (Ha1 Hn1) as [Hn0 H1]. split; [assumption|]. rewrite H2, H1. now rewrite <- app_assoc.
    + intros Hn. destruct (w_phase q1) eqn:Ep1.
      1-2: destruct Ha1 as [_ H1]; [discriminate|]; destruct Hc2 as [c Hc]; [discriminate|]; exists c; rewrite <- Hc, H1; now rewrite <- !app_assoc.
      destruct (Hd1 eq_refl) as [Hd|Ho]; [contradiction|]. destruct (Hd2 eq_refl) as [_ Hs2]. rewrite Hs2, (He1 Ho).
      eexists. rewrite <- app_assoc. reflexivity.
    + intros Hd. destruct (Hdd1 Hd) as [Hd' Hs1]. destruct (Hd2 Hd') as [H1 H2]. split; [assumption|congruence].
Qed.

(* --- flush ---------------------------------------------------------------- *)
Definition flush_inv (wf : N) (T : nat) (q : wqueue) : Prop :=
  (wf <= w_writes q -> (T <= length (w_sent q))%nat) /\
  (w_phase q = WDead \/
   (w_writes q + 1 = wf -> match w_phase q with WSending r => (T <= length (w_sent q) + length r)%nat
                           | _ => (T <= length (w_sent q) + length (w_get q (w_cur q)))%nat end) /\
   (w_writes q + 2 = wf -> match w_phase q with WSending r => (T <= length (w_sent q) + length r + length (w_get q (w_cur q)))%nat | _ => False end)) /\
  wf <= w_writes q + 2.
Lemma flush_start q wf : wok q -> w_phase q <> WDead -> wstep q WFlush = Ret (q, WrFlush wf) -> flush_inv wf (length (w_sent q ++ unsent q)) q.
Proof.
  intros Hok Hd E. cbn in E. injection E as <-. unfold flush_inv, unsent, wok in *. rewrite app_length. unfold blen.
  destruct (w_phase q) as [|r|]; [| |contradiction].
  - rewrite Hok. change (N.of_nat (length (@nil N)) =? 0) with true. cbv iota.
    destruct (N.of_nat (length (w_get q (w_cur q))) =? 0) eqn:E; repeat split; try right; try split; try lia.
  - destruct Hok as [a [-> Hne]].
    assert (length a + length r <> 0)%nat by (rewrite <- app_length; destruct (a ++ r); [contradiction|discriminate]).
    rewrite !app_length. replace (N.of_nat (length a + length r) =? 0) with false by lia.
    destruct (N.of_nat (length (w_get q (w_cur q))) =? 0) eqn:E; (split; [lia|]; split; [right; split; lia|lia]).
Qed.
Lemma flush_step wf T q o q' r : flush_inv wf T q -> wstep q o = Ret (q', r) -> flush_inv wf T q'.
Proof.
  intros [H1 [H2 H3]] E. destruct o as [m| |n| | | |w]; cbn [wstep] in E.
  - destruct (INT32_MAX <? blen m); injection E as <- <-; [split; auto|]. unfold flush_inv. cbn [w_writes w_sent w_phase w_cur].
    rewrite get_put_same, app_length. split; [assumption|]. split; [|assumption]. destruct H2 as [H2|[H2 H4]]; [now left|right].
    destruct (w_phase q); split; intros He; try specialize (H2 He); try specialize (H4 He); lia.
  - destruct (w_phase q) eqn:Ep; [|injection E as <- <-; unfold flush_inv; rewrite Ep; auto..].
    destruct (w_get q (w_cur q)) as [|x b] eqn:Eb; [injection E as <- <-; unfold flush_inv; rewrite Ep, Eb; auto|].
    destruct (w_get q (negb (w_cur q))) eqn:Eo; [|discriminate]. injection E as <- <-. unfold flush_inv. cbn [w_writes w_sent w_phase w_cur].
    split; [assumption|]. split; [|assumption]. destruct H2 as [H2|[H2 H4]]; [discriminate|right].
    split; intros He; [specialize (H2 He); lia|contradiction (H4 He)].
  - destruct (w_phase q) as [|[|x s]|] eqn:Ep; try (injection E as <- <-; unfold flush_inv; rewrite Ep; auto; fail).
    assert (Hl : (length (firstn n (x :: s)) + length (skipn n (x :: s)) = length (x :: s))%nat) by (rewrite <- app_length, firstn_skipn; reflexivity).
    injection E as <- <-. unfold flush_inv. cbn [w_writes w_sent w_phase w_cur]. rewrite app_length. unfold w_get in *. cbn [w_bufs].
    split; [intros He; specialize (H1 He); lia|]. split; [|assumption]. destruct H2 as [H2|[H2 H4]]; [discriminate|right].
    split; intros He; [specialize (H2 He)|specialize (H4 He)]; lia.
  - destruct (w_phase q) as [|[|x s]|] eqn:Ep; try (injection E as <- <-; unfold flush_inv; rewrite Ep; auto; fail).
    injection E as <- <-. unfold flush_inv. cbn [w_writes w_sent w_phase w_cur]. auto.
  - destruct (w_phase q) as [|[|x s]|] eqn:Ep; try (injection E as <- <-; unfold flush_inv; rewrite Ep; auto; fail).
    injection E as <- <-. unfold flush_inv. cbn [w_writes w_sent w_phase w_cur]. rewrite get_put_other'.
    destruct H2 as [H2|[H2 H4]]; [discriminate|]. cbn [length] in *.
    split; [|split; [right|lia]].
    + intros He. destruct (N.eq_dec (w_writes q + 1) wf) as [Hw|Hw]; [specialize (H2 Hw); lia|]. apply H1. lia.
    + split; intros He; [specialize (H4 ltac:(lia)); lia|lia].
  - injection E as <- <-. split; auto.
  - injection E as <- <-. split; auto.
Qed.
Lemma flush_exec wf T h : forall q q' rs, flush_inv wf T q -> exec wstep q h = Ret (q', rs) -> flush_inv wf T q'.
Proof.
  induction h as [|o h IH]; intros q q' rs H E; cbn in E; [injection E as <- <-; assumption|].
  destruct (wstep q o) as [[q1 r]|] eqn:E1; [|discriminate]. destruct (exec wstep q1 h) as [[q2 rs2]|] eqn:E2; [|discriminate].
  injection E as <- <-. eauto using flush_step.
Qed.
Lemma prefix_by_length {A} (a b c d : list A) : a ++ c = b ++ d -> (length a <= length b)%nat -> exists e, b = a ++ e.
Proof.
  revert b; induction a as [|x a IH]; intros b E Hl; [exists b; reflexivity|]. destruct b as [|y b]; [cbn in Hl; lia|].
  cbn in E. injection E as -> E. destruct (IH b E ltac:(cbn in Hl; lia)) as [e ->]. now exists e.
Qed.

Lemma alive_exec h : forall q q' rs, w_phase q <> WDead -> ~ In WSendErr h -> exec wstep q h = Ret (q', rs) -> w_phase q' <> WDead.
Proof.
  induction h as [|o h IH]; intros q q' rs Hi Hn E; cbn in E; [injection E as <- <-; auto|].
  destruct (wstep q o) as [[qa r]|] eqn:Ea; [|discriminate]. destruct (exec wstep qa h) as [[qb rb]|] eqn:Eb; [|discriminate].
  injection E as <- <-. apply (IH qa qb rb); [|intros H; apply Hn; now right|assumption]. intros Hq.
  destruct o as [m| |n| | | |w]; cbn [wstep] in Ea.
  - destruct (INT32_MAX <? blen m); injection Ea as <- <-; auto.
  - destruct (w_phase q) eqn:Ep; [|injection Ea as <- <-; congruence..]. destruct (w_get q (w_cur q)); [injection Ea as <- <-; congruence|].
    destruct (w_get q (negb (w_cur q))); [|discriminate]. injection Ea as <- <-. discriminate.
  - destruct (w_phase q) as [|[|x s]|] eqn:Ep; injection Ea as <- <-; try congruence. discriminate.
  - apply Hn. now left.
  - destruct (w_phase q) as [|[|x s]|] eqn:Ep; injection Ea as <- <-; try congruence. discriminate.
  - injection Ea as <- <-; auto.
  - injection Ea as <- <-; auto.
Qed.

Lemma drain_sending q n : wok q -> w_phase q <> WDead -> (length (w_get q (negb (w_cur q))) <= n)%nat ->
  exists q' rs, exec wstep q [WSend n; WDone] = Ret (q', rs) /\ w_phase q' = WIdle /\
    w_get q' (w_cur q') = w_get q (w_cur q) /\ w_get q' (negb (w_cur q')) = [] /\
    w_writes q' = w_writes q + match w_phase q with WIdle => 0 | _ => 1 end.
Proof.
  intros Hok Hd Hn. unfold wok in Hok. cbn [exec wstep]. destruct (w_phase q) as [|r|] eqn:Ep; [| |contradiction].
  - rewrite Ep. eexists _, _. split; [reflexivity|]. rewrite Ep. repeat split; auto. lia.
  - destruct Hok as [a [Ha Hne]]. destruct r as [|x r].
    + rewrite Ep. eexists _, _. split; [reflexivity|]. cbn [w_phase w_cur w_writes]. rewrite get_put_other', get_put_same. auto.
    + cbn [w_phase]. rewrite skipn_all2 by (rewrite Ha, app_length in Hn; lia). cbn [w_cur w_bufs w_writes w_sent].
      eexists _, _. split; [reflexivity|]. cbn [w_phase w_cur w_writes]. rewrite get_put_other', get_put_same. auto.
Qed.
Lemma drain_idle q n : w_phase q = WIdle -> w_get q (negb (w_cur q)) = [] -> (length (w_get q (w_cur q)) <= n)%nat ->
  exists q' rs, exec wstep q [WTake; WSend n; WDone] = Ret (q', rs) /\
    w_writes q' = w_writes q + (if N.of_nat (length (w_get q (w_cur q))) =? 0 then 0 else 1).
Proof.
  intros Hi Ho Hn. cbn [exec wstep]. rewrite Hi. destruct (w_get q (w_cur q)) as [|x r] eqn:Eb.
  - rewrite Hi. cbn [wstep]. rewrite Hi. eexists _, _. split; [reflexivity|]. cbn. lia.
  - rewrite Ho. cbn [w_phase w_cur w_bufs w_writes w_sent]. rewrite skipn_all2 by assumption. cbn [w_phase w_cur w_bufs w_writes w_sent].
    eexists _, _. split; [reflexivity|]. cbn [w_writes length]. destruct (N.of_nat (S (length r)) =? 0) eqn:E; lia.
Qed.
