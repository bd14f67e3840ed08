From Verif Require Import HostFlow HostFlowSpec.

Lemma nth_set {A} i j (x : A) l : nth_error (set_nth i x l) j = if j =? i then match nth_error l i with Some _ => Some x | None => None end else nth_error l j.
Proof.
  revert i j. induction l as [|y l IH]; intros i j; [destruct i, j; cbn; try reflexivity; now destruct (_ =? _)|].
  destruct i as [|i], j as [|j]; cbn; try reflexivity. apply IH.
Qed.
Lemma nth_set_same {A} i (x y : A) l : nth_error l i = Some y -> nth_error (set_nth i x l) i = Some x.
Proof. intros H. now rewrite nth_set, Nat.eqb_refl, H. Qed.
Lemma nth_set_other {A} i j (x : A) l : j <> i -> nth_error (set_nth i x l) j = nth_error l j.
Proof. intros H. rewrite nth_set. now destruct (Nat.eqb_spec j i). Qed.
Lemma length_set {A} i (x : A) l : length (set_nth i x l) = length l.
Proof. revert i. induction l as [|y l IH]; intros [|i]; cbn; auto. Qed.

(* who holds the lock, and who is in a call for whom *)
Record inv (n : nat) (s : host) : Prop := {
  i_len : length (workers s) = n;
  i_loop : mu s = Some HLoop -> loop s = LReset true \/ loop s = LResetIn true;
  i_gone : forall i, mu s = Some (HGone i) -> nth_error (gone s) i = Some GReset \/ nth_error (gone s) i = Some GResetIn;
  i_loop_held : loop s = LReset true \/ loop s = LResetIn true -> mu s = Some HLoop;
  i_gone_held : forall i, nth_error (gone s) i = Some GReset \/ nth_error (gone s) i = Some GResetIn -> mu s = Some (HGone i);
  i_loop_in : forall h, loop s = LResetIn h -> exists k r, nth_error (workers s) k = Some (Some (ByLoop, r));
  i_gone_in : forall i, nth_error (gone s) i = Some GResetIn -> exists k r, nth_error (workers s) k = Some (Some (ByGone i, r)) }.

Lemma inv0 n : inv n (host0 n).
Proof.
  split; cbn; try discriminate; try (intros; discriminate).
  - apply repeat_length.
  - intros [|]; discriminate.
  - intros [|i] [|]; discriminate.
  - intros [|i]; discriminate.
Qed.
Lemma in_workers_free (ws : list (option (who * list out))) k w x : nth_error ws k = Some None -> (exists j l, nth_error ws j = Some (Some (w, l))) ->
  exists j l, nth_error (set_nth k x ws) j = Some (Some (w, l)).
Proof. intros K (j & l & J). exists j, l. rewrite nth_set_other; [assumption|]. intros ->. congruence. Qed.
Lemma in_workers_out (ws : list (option (who * list out))) k w w0 o r : nth_error ws k = Some (Some (w0, o :: r)) -> (exists j l, nth_error ws j = Some (Some (w, l))) ->
  exists j l, nth_error (set_nth k (Some (w0, r)) ws) j = Some (Some (w, l)).
Proof.
  intros K (j & l & J). destruct (Nat.eq_dec j k) as [->|N].
  - rewrite K in J. injection J as <- <-. exists k, r. now apply nth_set_same with (y := Some (w0, o :: r)).
  - exists j, l. now rewrite nth_set_other.
Qed.
Lemma in_workers_end (ws : list (option (who * list out))) k w w0 : nth_error ws k = Some (Some (w0, [])) -> w <> w0 -> (exists j l, nth_error ws j = Some (Some (w, l))) ->
  exists j l, nth_error (set_nth k None ws) j = Some (Some (w, l)).
Proof.
  intros K W (j & l & J). exists j, l. rewrite nth_set_other; [assumption|]. intros ->. rewrite K in J. congruence.
Qed.

Lemma inv_step cap n s e s' : inv n s -> step cap s e = Some s' -> inv n s'.
Proof.
  intros [L A B A' B' C D] E. destruct e; cbn [step] in E.
  - injection E as <-. split; assumption.
  - destruct (tick s); [discriminate|]. injection E as <-. split; assumption.
  - destruct (nth_error (gone s) i) as [[]|] eqn:G; try discriminate. injection E as <-.
    assert (Q : forall j g, g <> GLock -> nth_error (set_nth i GLock (gone s)) j = Some g -> nth_error (gone s) j = Some g).
    { intros j g Ng H. rewrite nth_set in H. destruct (Nat.eqb_spec j i) as [->|]; [rewrite G in H; congruence|assumption]. }
    split; cbn; try assumption.
    + intros j H. destruct (B _ H) as [H'|H']; [left|right]; rewrite nth_set_other; auto; intros ->; congruence.
    + intros j [H|H]; apply Q in H; try discriminate; apply B'; auto.
    + intros j H. apply Q in H; [|discriminate]. auto.
  - destruct (nth_error (workers s) k) as [[[w [|o r]]|]|] eqn:K; try discriminate. destruct (_ <? _); [|discriminate]. injection E as <-.
    split; cbn; try assumption.
    + now rewrite length_set.
    + intros h H. apply in_workers_out with (o := o); [assumption|]. eauto.
    + intros i H. apply in_workers_out with (o := o); [assumption|]. eauto.
  - destruct (tick s) as [[|o r]|]; try discriminate. destruct (_ <? _); [|discriminate]. injection E as <-. split; assumption.
  - destruct (nth_error (workers s) k) as [[[w [|o r]]|]|] eqn:K; try discriminate. injection E as <-. destruct w as [|i|]; cbn [finish].
    + cbn [set_worker loop]. destruct (loop s) as [| |h|h] eqn:Lo.
      1-3: split; cbn; try (now rewrite length_set); try assumption; try (rewrite Lo; assumption); try (rewrite Lo; discriminate);
        try (intros h' H; rewrite Lo in H; discriminate); try (intros i H; eapply in_workers_end; [eassumption|discriminate|]; auto).
      split; cbn; try (now rewrite length_set); try discriminate.
      * destruct h; [discriminate|]. intros H. destruct (A H) as [X|X]; discriminate.
      * intros i. destruct h; [discriminate|]. apply B.
      * intros [|]; discriminate.
      * intros i H. pose proof (B' _ H) as M. destruct h; [|assumption]. rewrite A' in M by auto. discriminate.
      * intros i H. eapply in_workers_end; [eassumption|discriminate|]. auto.
    + cbn [set_worker gone]. destruct (nth_error (gone s) i) as [[]|] eqn:G.
      1-3,5-6: split; cbn; try (now rewrite length_set); try assumption;
        try (intros h H; eapply in_workers_end; [eassumption|discriminate|]; eauto);
        (intros j H; eapply in_workers_end; [eassumption|intros [= ->]; congruence|]; auto).
      pose proof (B' i (or_intror G)) as M.
      assert (Q : forall j g, g <> GEnd -> nth_error (set_nth i GEnd (gone s)) j = Some g -> j <> i /\ nth_error (gone s) j = Some g).
      { intros j g Ng H. rewrite nth_set in H. destruct (Nat.eqb_spec j i) as [->|]; [rewrite G in H; congruence|auto]. }
      split; cbn; try (now rewrite length_set); try discriminate.
      * intros H. rewrite A' in M by assumption. discriminate.
      * intros j [H|H]; apply Q in H as [N H]; try discriminate; pose proof (B' j ltac:(auto)) as M'; congruence.
      * intros h H. eapply in_workers_end; [eassumption|discriminate|]. eauto.
      * intros j H. apply Q in H as [N H]; [|discriminate]. eapply in_workers_end; [eassumption|congruence|]. auto.
    + split; cbn; try (now rewrite length_set); try assumption.
      * intros h H. eapply in_workers_end; [eassumption|discriminate|]. eauto.
      * intros i H. eapply in_workers_end; [eassumption|discriminate|]. eauto.
  - destruct (tick s) as [[|o r]|]; try discriminate. injection E as <-. split; assumption.
  - destruct (nth_error (workers s) k) as [[?|]|] eqn:K; try discriminate. destruct w as [|i|].
    + destruct (loop s) as [| |h|h] eqn:Lo; try discriminate. injection E as <-. split; cbn; try (now rewrite length_set); try assumption.
      * intros H. destruct (A H) as [X|X]; [injection X as ->; now right|discriminate].
      * intros [|X]; [discriminate|]. injection X as ->. apply A'. now left.
      * intros h' _. exists k, outs. eapply nth_set_same; eassumption.
      * intros i H. eapply in_workers_free; [eassumption|]. auto.
    + destruct (nth_error (gone s) i) as [[]|] eqn:G; try discriminate. injection E as <-.
      split; cbn; try (now rewrite length_set); try assumption.
      * intros j H. destruct (Nat.eq_dec j i) as [->|N]; [right; eapply nth_set_same; eassumption|]. rewrite nth_set_other by assumption. auto.
      * intros j H. destruct (Nat.eq_dec j i) as [->|N]; [apply B'; auto|]. rewrite nth_set_other in H by assumption. auto.
      * intros h H. eapply in_workers_free; [eassumption|]. eauto.
      * intros j H. destruct (Nat.eq_dec j i) as [->|N]; [exists k, outs; eapply nth_set_same; eassumption|]. rewrite nth_set_other in H by assumption.
        eapply in_workers_free; [eassumption|]. auto.
    + destruct (others s) as [|m]; [discriminate|]. injection E as <-. split; cbn; try (now rewrite length_set); try assumption.
      * intros h H. eapply in_workers_free; [eassumption|]. eauto.
      * intros i H. eapply in_workers_free; [eassumption|]. auto.
  - destruct (loop s) eqn:Lo; try discriminate. destruct (chan s) as [|o r]; [discriminate|]. injection E as <-. split; cbn; try assumption.
    + intros H. destruct (A H); congruence.
    + destruct o; intros [|]; discriminate.
    + intros h H. destruct o; discriminate.
  - destruct (loop s) eqn:Lo; try discriminate. destruct (mu s) eqn:M; [discriminate|]. injection E as <-.
    assert (Ng : forall i, ~ (nth_error (gone s) i = Some GReset \/ nth_error (gone s) i = Some GResetIn)) by (intros i H; apply B' in H; congruence).
    assert (Ap : forall i, ~ (nth_error (gone s ++ [GRun]) i = Some GReset \/ nth_error (gone s ++ [GRun]) i = Some GResetIn)).
    { intros i H. destruct (Nat.lt_ge_cases i (length (gone s))) as [I|I].
      - rewrite nth_error_app1 in H by assumption. now apply (Ng i).
      - rewrite nth_error_app2 in H by assumption. destruct (i - length (gone s)) as [|[|m]]; destruct H; discriminate. }
    destruct f; split; cbn; try assumption; try discriminate; try (intros [|]; discriminate); try (intros i H; exfalso; (now apply (Ng i)) || (now apply (Ap i)));
      try (intros i H; exfalso; (apply (Ng i); now auto) || (apply (Ap i); now auto)).
    + now left.
    + reflexivity.
  - destruct (nth_error (gone s) i) as [[]|] eqn:G; try discriminate. destruct (mu s) eqn:M; [discriminate|]. injection E as <-.
    assert (Ng : forall i, ~ (nth_error (gone s) i = Some GReset \/ nth_error (gone s) i = Some GResetIn)) by (intros j H; apply B' in H; congruence).
    assert (Nl : ~ (loop s = LReset true \/ loop s = LResetIn true)) by (intros H; apply A' in H; congruence).
    destruct abandon; split; cbn; try assumption; try discriminate; try (intros H; contradiction).
    + intros j [= <-]. left. eapply nth_set_same; eassumption.
    + intros j H. destruct (Nat.eq_dec j i) as [->|N]; [reflexivity|]. rewrite !nth_set_other in H by assumption. now destruct (Ng j).
    + intros j H. destruct (Nat.eq_dec j i) as [->|N]; [rewrite (nth_set_same _ _ _ _ G) in H; discriminate|]. rewrite nth_set_other in H by assumption. now destruct (Ng j); right.
    + intros j H. destruct (Nat.eq_dec j i) as [->|N]; [rewrite (nth_set_same _ _ _ _ G) in H; destruct H; discriminate|]. rewrite !nth_set_other in H by assumption. now destruct (Ng j).
    + intros j H. destruct (Nat.eq_dec j i) as [->|N]; [rewrite (nth_set_same _ _ _ _ G) in H; discriminate|]. rewrite nth_set_other in H by assumption. now destruct (Ng j); right.
Qed.
Lemma inv_run cap n es : forall s s', inv n s -> run cap s es = Some s' -> inv n s'.
Proof.
  induction es as [|e es IH]; cbn; intros s s' I H; [now injection H as <-|]. destruct (step cap s e) as [s1|] eqn:E; [|discriminate].
  eapply IH; [eapply inv_step; eassumption|exact H].
Qed.
Lemma inv_reach cap n s : reachable cap n s -> inv n s.
Proof. intros (es & H). eapply inv_run; [apply inv0|exact H]. Qed.

(* what cannot go on *)
Lemma busy_full cap s : (forall e, internal e = true -> step cap s e = None) ->
  (forall k w r, nth_error (workers s) k = Some (Some (w, r)) -> cap <= length (chan s) /\ r <> []) /\
  (forall r, tick s = Some r -> cap <= length (chan s) /\ r <> []).
Proof.
  intros H. split.
  - intros k w r K. pose proof (H (EOut k) eq_refl) as O. pose proof (H (EDone k) eq_refl) as D. cbn [step] in O, D. rewrite K in O, D.
    destruct r as [|o r]; [discriminate|]. destruct (Nat.ltb_spec (length (chan s)) cap); [discriminate|]. now split.
  - intros r T. pose proof (H ETickOut eq_refl) as O. pose proof (H ETickDone eq_refl) as D. cbn [step] in O, D. rewrite T in O, D.
    destruct r as [|o r]; [discriminate|]. destruct (Nat.ltb_spec (length (chan s)) cap); [discriminate|]. now split.
Qed.
Lemma all_none (ws : list (option (who * list out))) : (forall k x, nth_error ws k <> Some (Some x)) -> Forall (fun w => w = None) ws.
Proof. intros H. apply Forall_forall. intros [x|] I; [|reflexivity]. apply In_nth_error in I as (k & K). now apply H in K. Qed.
Lemma idle_or_busy (ws : list (option (who * list out))) : ws <> [] -> (exists k, nth_error ws k = Some None) \/ (exists k x, nth_error ws k = Some (Some x)).
Proof. destruct ws as [|[x|] ws]; [easy|right; now exists 0, x|left; now exists 0]. Qed.

Lemma stuck_because cap n s : 0 < cap -> 0 < n -> inv n s -> stuck cap s -> cap <= length (chan s) /\ resetting s /\ unfinished s.
Proof.
  intros Cp Np I [NR H]. destruct (busy_full cap s H) as [Bw Bt]. destruct I as [L A B A' B' C D].
  assert (Ws : workers s <> []) by (destruct (workers s); [cbn in L; lia|discriminate]).
  assert (Fin : forall k x, nth_error (workers s) k = Some (Some x) -> cap <= length (chan s) /\ unfinished s).
  { intros k [w r] K. destruct (Bw _ _ _ K) as [F N]. split; [assumption|]. left. destruct r as [|o r]; [easy|]. exists w, o, r. eapply nth_error_In; eassumption. }
  assert (Task : (exists w, forall k outs, nth_error (workers s) k = Some None -> step cap s (ETake k w outs) <> None) -> exists k x, nth_error (workers s) k = Some (Some x)).
  { intros (w & T). destruct (idle_or_busy _ Ws) as [(k & K)|X]; [|exact X]. now destruct (T k [] K (H (ETake k w []) eq_refl)). }
  assert (TL : forall h, loop s = LReset h -> exists k x, nth_error (workers s) k = Some (Some x)).
  { intros h Lo. apply Task. exists ByLoop. intros k outs K. cbn [step]. now rewrite K, Lo. }
  assert (TG : forall i, nth_error (gone s) i = Some GReset -> exists k x, nth_error (workers s) k = Some (Some x)).
  { intros i G. apply Task. exists (ByGone i). intros k outs K. cbn [step]. now rewrite K, G. }
  destruct (loop s) as [| |h|h] eqn:Lo.
  - exfalso. pose proof (H EMsg eq_refl) as M. cbn [step] in M. rewrite Lo in M. destruct (chan s) as [|o r] eqn:Ch; [|discriminate].
    assert (NB : forall k x, nth_error (workers s) k <> Some (Some x)).
    { intros k x K. destruct (Fin k x K) as [F _]. cbn in F. lia. }
    assert (NT : tick s = None) by (destruct (tick s) as [r|] eqn:T; [destruct (Bt r eq_refl) as [F _]; cbn in F; lia|reflexivity]).
    assert (Mu : mu s = None).
    { destruct (mu s) as [[|i]|] eqn:Mu; [destruct (A eq_refl); discriminate| |reflexivity].
      destruct (B i eq_refl) as [G|G]; [destruct (TG i G) as (k & x & K)|destruct (D i G) as (k & x & K)]; exfalso; exact (NB _ _ K). }
    apply NR. split; [assumption|]. split; [now apply all_none|]. split; [assumption|]. split; [assumption|]. split.
    + apply Forall_forall. intros g G. apply In_nth_error in G as (i & G). destruct g; auto.
      * pose proof (H (EGoneLock i true) eq_refl) as X. cbn [step] in X. rewrite G, Mu in X. discriminate.
      * rewrite (B' i (or_introl G)) in Mu. discriminate.
      * rewrite (B' i (or_intror G)) in Mu. discriminate.
    + destruct (others s) as [|m] eqn:O; [reflexivity|]. destruct Task as (k & x & K); [|now destruct (NB k x)].
      exists ByOther. intros k outs K. cbn [step]. now rewrite K, O.
  - unfold resetting. rewrite Lo. destruct (mu s) as [[|i]|] eqn:Mu.
    + destruct (A eq_refl); discriminate.
    + assert (X : exists k x, nth_error (workers s) k = Some (Some x)).
      { destruct (B i eq_refl) as [G|G]; [exact (TG i G)|]. destruct (D i G) as (k & r & K). now exists k, (ByGone i, r). }
      destruct X as (k & x & K). destruct (Fin k x K) as [F U]. split; [assumption|]. split; [|assumption]. exists i. apply B. reflexivity.
    + pose proof (H (ELock Queued) eq_refl) as X. cbn [step] in X. rewrite Lo, Mu in X. discriminate.
  - unfold resetting. rewrite Lo. destruct (TL h eq_refl) as (k & x & K). destruct (Fin k x K) as [F U]. auto.
  - unfold resetting. rewrite Lo. destruct (C h eq_refl) as (k & r & K). destruct (Fin k _ K) as [F U]. auto.
Qed.

Lemma unfinished_todo s : unfinished s -> 0 < todo s.
Proof.
  unfold todo. intros [(w & o & r & I)|(o & r & T)].
  - induction (workers s) as [|y ws IH]; [destruct I|]. cbn [fold_right]. destruct I as [->|I]; [cbn; lia|]. specialize (IH I). lia.
  - rewrite T. cbn. lia.
Qed.

(* --- a state that nothing leads out of --- *)
Definition dead (cap : nat) (s : host) : Prop :=
  cap <= length (chan s) /\ (exists h, loop s = LReset h) /\ forall k x, nth_error (workers s) k = Some x -> exists w o r, x = Some (w, o :: r).
Lemma dead_step cap s e s' : dead cap s -> step cap s e = Some s' -> dead cap s' /\ chan s' = chan s /\ loop s' = loop s /\ workers s' = workers s.
Proof.
  intros (F & (h & Lo) & W) E.
  assert (T : forall s1, Some s1 = Some s' -> chan s1 = chan s -> loop s1 = loop s -> workers s1 = workers s ->
            dead cap s' /\ chan s' = chan s /\ loop s' = loop s /\ workers s' = workers s).
  { intros s1 [= <-] A B C. unfold dead. rewrite A, B, C. split; [|auto]. split; [assumption|]. split; [now exists h|assumption]. }
  destruct e; cbn [step] in E.
  - eapply T; [exact E|reflexivity..].
  - destruct (tick s); [discriminate|]. eapply T; [exact E|reflexivity..].
  - destruct (nth_error (gone s) i) as [[]|]; try discriminate. eapply T; [exact E|reflexivity..].
  - destruct (nth_error (workers s) k) as [[[w [|o r]]|]|]; try discriminate. destruct (Nat.ltb_spec (length (chan s)) cap); [lia|discriminate].
  - destruct (tick s) as [[|o r]|]; try discriminate. destruct (Nat.ltb_spec (length (chan s)) cap); [lia|discriminate].
  - destruct (nth_error (workers s) k) as [x|] eqn:K; [|discriminate]. destruct (W _ _ K) as (w & o & r & ->). discriminate.
  - destruct (tick s) as [[|o r]|]; try discriminate. eapply T; [exact E|reflexivity..].
  - destruct (nth_error (workers s) k) as [x|] eqn:K; [|discriminate]. destruct (W _ _ K) as (w' & o & r & ->). discriminate.
  - rewrite Lo in E. discriminate.
  - rewrite Lo in E. discriminate.
  - destruct (nth_error (gone s) i) as [[]|]; try discriminate. destruct (mu s); [discriminate|]. destruct abandon; (eapply T; [exact E|reflexivity..]).
Qed.
Lemma dead_run cap es : forall s s', dead cap s -> run cap s es = Some s' -> dead cap s' /\ chan s' = chan s /\ loop s' = loop s /\ workers s' = workers s.
Proof.
  induction es as [|e es IH]; cbn; intros s s' D H; [injection H as <-; auto|]. destruct (step cap s e) as [s1|] eqn:E; [|discriminate].
  destruct (dead_step _ _ _ _ D E) as (D1 & C1 & L1 & W1). destruct (IH _ _ D1 H) as (D2 & C2 & L2 & W2). split; [assumption|]. split; [|split]; congruence.
Qed.

(* --- no sender is abandoned --- *)
Definition calm (s : host) : Prop := (loop s = LWait \/ loop s = LLock) /\ forall i g, nth_error (gone s) i = Some g -> g <> GReset /\ g <> GResetIn.
Lemma calm_set s i g : calm s -> g <> GReset -> g <> GResetIn -> forall j h, nth_error (set_nth i g (gone s)) j = Some h -> h <> GReset /\ h <> GResetIn.
Proof.
  intros (_ & G) A B j h H. rewrite nth_set in H. destruct (j =? i); [|now apply (G j)]. destruct (nth_error (gone s) i); [|discriminate]. injection H as <-. auto.
Qed.
Lemma calm_step cap s e s' : keeps_up e -> calm s -> step cap s e = Some s' -> calm s'.
Proof.
  intros K Cm E. pose proof (calm_set s) as Set_. destruct Cm as (Lo & G).
  assert (Cm : calm s) by (split; assumption).
  destruct e; cbn [step] in E.
  - injection E as <-. exact Cm.
  - destruct (tick s); [discriminate|]. injection E as <-. exact Cm.
  - destruct (nth_error (gone s) i) as [[]|]; try discriminate. injection E as <-. split; [exact Lo|]. now apply Set_.
  - destruct (nth_error (workers s) k) as [[[w [|o r]]|]|]; try discriminate. destruct (_ <? _); [|discriminate]. injection E as <-. exact Cm.
  - destruct (tick s) as [[|o r]|]; try discriminate. destruct (_ <? _); [|discriminate]. injection E as <-. exact Cm.
  - destruct (nth_error (workers s) k) as [[[w [|o r]]|]|]; try discriminate. injection E as <-. destruct w as [|i|]; cbn [finish].
    + cbn [set_worker loop]. destruct Lo as [Lo|Lo]; rewrite Lo; exact Cm.
    + cbn [set_worker gone]. destruct (nth_error (gone s) i) as [[]|] eqn:Gi; try exact Cm. now destruct (G _ _ Gi).
    + exact Cm.
  - destruct (tick s) as [[|o r]|]; try discriminate. injection E as <-. exact Cm.
  - destruct (nth_error (workers s) k) as [[?|]|]; try discriminate. destruct w as [|i|].
    + destruct Lo as [Lo|Lo]; rewrite Lo in E; discriminate.
    + destruct (nth_error (gone s) i) as [[]|] eqn:Gi; try discriminate. now destruct (G _ _ Gi).
    + destruct (others s); [discriminate|]. injection E as <-. exact Cm.
  - destruct (loop s); try discriminate. destruct (chan s) as [|o r]; [discriminate|]. injection E as <-. split; [destruct o; cbn; auto|exact G].
  - destruct (loop s); try discriminate. destruct (mu s); [discriminate|]. injection E as <-. destruct f; try contradiction; (split; [cbn; auto|]); try exact G.
    intros i g H. cbn in H. destruct (Nat.lt_ge_cases i (length (gone s))) as [I|I].
    + rewrite nth_error_app1 in H by assumption. now apply (G i).
    + rewrite nth_error_app2 in H by assumption. destruct (i - length (gone s)) as [|[|m]]; [injection H as <-; split; discriminate|discriminate..].
  - destruct (nth_error (gone s) i) as [[]|]; try discriminate. destruct (mu s); [discriminate|]. injection E as <-. destruct abandon; [contradiction|].
    split; [exact Lo|]. now apply Set_.
Qed.
Lemma calm_run cap es : forall s s', Forall keeps_up es -> calm s -> run cap s es = Some s' -> calm s'.
Proof.
  induction es as [|e es IH]; cbn; intros s s' F C H; [now injection H as <-|]. inversion F; subst. destruct (step cap s e) as [s1|] eqn:E; [|discriminate].
  eapply IH; [assumption|eapply calm_step; eassumption|exact H].
Qed.
Lemma calm0 n : calm (host0 n).
Proof. split; [now left|]. intros [|i] g; discriminate. Qed.
Lemma calm_not_resetting s : calm s -> ~ resetting s.
Proof. intros ([L|L] & G); unfold resetting; rewrite L; [tauto|]. intros (i & [H|H]); apply G in H; tauto. Qed.
Lemma chan_step cap s e s' : length (chan s) <= cap -> step cap s e = Some s' -> length (chan s') <= cap.
Proof.
  intros C E. destruct e; cbn [step] in E.
  - now injection E as <-.
  - destruct (tick s); [discriminate|]. now injection E as <-.
  - destruct (nth_error (gone s) i) as [[]|]; try discriminate. now injection E as <-.
  - destruct (nth_error (workers s) k) as [[[w [|o r]]|]|]; try discriminate. destruct (Nat.ltb_spec (length (chan s)) cap); [|discriminate]. injection E as <-. cbn. rewrite app_length. cbn. lia.
  - destruct (tick s) as [[|o r]|]; try discriminate. destruct (Nat.ltb_spec (length (chan s)) cap); [|discriminate]. injection E as <-. cbn. rewrite app_length. cbn. lia.
  - destruct (nth_error (workers s) k) as [[[w [|o r]]|]|]; try discriminate. injection E as <-. destruct w as [|i|]; cbn [finish]; [| |assumption].
    + cbn [set_worker loop]. destruct (loop s); assumption.
    + cbn [set_worker gone]. destruct (nth_error (gone s) i) as [[]|]; assumption.
  - destruct (tick s) as [[|o r]|]; try discriminate. now injection E as <-.
  - destruct (nth_error (workers s) k) as [[?|]|]; try discriminate. destruct w as [|i|].
    + destruct (loop s); try discriminate. now injection E as <-.
    + destruct (nth_error (gone s) i) as [[]|]; try discriminate. now injection E as <-.
    + destruct (others s); [discriminate|]. now injection E as <-.
  - destruct (loop s); try discriminate. destruct (chan s) as [|o r]; [discriminate|]. injection E as <-. cbn in *. lia.
  - destruct (loop s); try discriminate. destruct (mu s); [discriminate|]. injection E as <-. destruct f; assumption.
  - destruct (nth_error (gone s) i) as [[]|]; try discriminate. destruct (mu s); [discriminate|]. injection E as <-. destruct abandon; assumption.
Qed.
Lemma chan_run cap es : forall s s', length (chan s) <= cap -> run cap s es = Some s' -> length (chan s') <= cap.
Proof.
  induction es as [|e es IH]; cbn; intros s s' C H; [now injection H as <-|]. destruct (step cap s e) as [s1|] eqn:E; [|discriminate].
  eapply IH; [eapply chan_step; eassumption|exact H].
Qed.
