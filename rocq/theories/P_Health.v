(* C102: what a host says of its health is so, and not long ago. *)
From Verif Require Import Base Health.
Open Scope Z_scope.

(* A clock that works: time between checks, a time they may take, and answers
   come after their questions. *)
Definition sane (c : setup) : Prop :=
  0 < period c /\ 0 <= timeout c /\ forall s d ok, answered c s = Some (d, ok) -> 0 <= d.

Section C.
Context (c : setup) (S_ : sane c).
Lemma check_bounds s : s <= fst (liveness_check c s) <= s + timeout c.
Proof.
  destruct S_ as (P & T & A). unfold liveness_check. destruct (answered c s) as [[d ok]|] eqn:E; [|cbn; lia].
  specialize (A _ _ _ E). destruct ((d <? timeout c) || ((d =? timeout c) && tie c s)) eqn:B; cbn; [|lia].
  apply Bool.orb_true_iff in B as [B|B]; [apply Z.ltb_lt in B|apply andb_prop in B as [B _]; apply Z.eqb_eq in B]; lia.
Qed.
Lemma check_well s : snd (liveness_check c s) = true ->
  exists d, answered c s = Some (d, true) /\ fst (liveness_check c s) = s + d /\ d <= timeout c.
Proof.
  unfold liveness_check. destruct (answered c s) as [[d ok]|]; [|cbn; congruence].
  destruct ((d <? timeout c) || ((d =? timeout c) && tie c s)) eqn:B; cbn; [|congruence].
  intros ->. exists d. split; [reflexivity|]. split; [reflexivity|].
  apply Bool.orb_true_iff in B as [B|B]; [apply Z.ltb_lt in B|apply andb_prop in B as [B _]; apply Z.eqb_eq in B]; lia.
Qed.
Lemma tick_bounds r : r < next_tick c r <= r + period c.
Proof.
  destruct S_ as (P & _). unfold next_tick.
  pose proof (Z.div_mod (r - t0 c) (period c)). pose proof (Z.mod_pos_bound (r - t0 c) (period c)). nia.
Qed.
Lemma begins_S k : begins c (S k) = Z.max (ends c k) (next_tick c (begins c k)).
Proof. reflexivity. Qed.
Lemma ends_bounds k : begins c k <= ends c k <= begins c k + timeout c.
Proof. apply check_bounds. Qed.
Lemma ends_mono k : ends c k <= ends c (S k).
Proof. pose proof (ends_bounds (S k)). rewrite begins_S in H at 1. lia. Qed.
Lemma ends_mono' j k : (j <= k)%nat -> ends c j <= ends c k.
Proof. induction 1 as [|k H IH]; [lia|]. pose proof (ends_mono k). lia. Qed.
Lemma begins_grow k : t0 c + Z.of_nat k <= begins c k.
Proof.
  induction k as [|k IH]; [cbn; lia|]. rewrite begins_S. pose proof (tick_bounds (begins c k)). lia.
Qed.
Lemma next_ends k : ends c (S k) <= Z.max (ends c k) (begins c k + period c) + timeout c.
Proof. pose proof (ends_bounds (S k)). rewrite begins_S in H. pose proof (tick_bounds (begins c k)). lia. Qed.
Lemma found x : forall n, ends c 0 <= x -> x < ends c n -> exists k, ends c k <= x < ends c (S k).
Proof.
  induction n as [|n IH]; intros A B; [lia|]. destruct (Z.lt_ge_cases x (ends c n)); [auto|eauto].
Qed.
End C.

(* At every time the host gives one answer. *)
Theorem C102_one_answer c : sane c -> forall x, exists b, live c x b /\ forall b', live c x b' -> b' = b.
Proof.
  intros S x. destruct (Z.lt_ge_cases x (ends c 0)) as [L|G].
  - exists false. split; [left; auto|]. intros b' [[_ H]|(k & H & _)]; [exact H|].
    pose proof (ends_mono' c S 0 k ltac:(lia)). lia.
  - destruct (found c x (Z.to_nat (x - t0 c) + 1) G) as (k & K).
    { pose proof (begins_grow c S (Z.to_nat (x - t0 c) + 1)). pose proof (ends_bounds c S (Z.to_nat (x - t0 c) + 1)). lia. }
    exists (ended_well c k). split; [right; eauto|]. intros b' [[H _]|(j & H & ->)]; [lia|].
    assert (j = k); [|congruence].
    destruct (Nat.lt_trichotomy j k) as [D|[D|D]]; [|exact D|].
    + pose proof (ends_mono' c S (Datatypes.S j) k D). lia.
    + pose proof (ends_mono' c S (Datatypes.S k) j D). lia.
Qed.

(* Whenever it says that it lives, its enclave gave it a status, less than a
   period and a timeout ago. *)
Theorem C102_live_is_recent c x :
  sane c -> live c x true ->
  exists s d, answered c s = Some (d, true) /\ d <= timeout c /\
              s + d <= x < s + d + period c + timeout c.
Proof.
  intros S [[_ H]|(k & K & W)]; [discriminate|]. symmetry in W. unfold ended_well in W.
  apply check_well in W as (d & A & E & D). exists (begins c k), d. split; [exact A|]. split; [exact D|].
  assert (E' : ends c k = begins c k + d) by exact E.
  pose proof (next_ends c S k). destruct S as (P & T & N). specialize (N _ _ _ A). lia.
Qed.
(* So an enclave that is silent is noticed by then; *)
Theorem C102_silence_is_noticed c t :
  sane c -> (forall s d, answered c s = Some (d, true) -> s + d < t) ->
  forall x, t + period c + timeout c <= x -> live c x false.
Proof.
  intros S H x X. destruct (C102_one_answer c S x) as ([|] & L & _); [|exact L].
  destruct (C102_live_is_recent c x S L) as (s & d & A & _ & B). specialize (H _ _ A). lia.
Qed.
(* and one that answers in good time is, no matter what was before. *)
Theorem C102_answers_are_noticed c t D :
  sane c -> D < timeout c -> t0 c <= t ->
  (forall s, t <= s -> exists d, answered c s = Some (d, true) /\ d <= D) ->
  forall x, t + Z.max (period c) (timeout c) + D <= x -> live c x true.
Proof.
  intros S HD T0 H x X. destruct (C102_one_answer c S x) as ([|] & L & _); [exact L|exfalso].
  assert (G : forall k, t <= begins c k -> ends c k <= begins c k + D /\ ended_well c k = true).
  { intros k K. destruct (H _ K) as (d & A & B). unfold ends, ended_well, liveness_check. rewrite A.
    destruct (Z.ltb_spec d (timeout c)); [|lia]. cbn. split; [lia|reflexivity]. }
  assert (D0 : 0 <= D).
  { destruct (H t (Z.le_refl _)) as (d & A & B). destruct S as (_ & _ & N). specialize (N _ _ _ A). lia. }
  destruct S as (P & T & N). assert (S : sane c) by (split; [|split]; assumption).
  destruct L as [[L _]|(k & K & W)].
  - pose proof (ends_bounds c S 0). change (begins c 0) with (t0 c) in *. lia.
  - destruct (Z.lt_ge_cases (begins c k) t) as [B|B].
    + pose proof (ends_bounds c S k). pose proof (ends_bounds c S (Datatypes.S k)) as B2.
      pose proof (tick_bounds c S (begins c k)). pose proof (begins_S c k) as B3.
      destruct (Z.lt_ge_cases (begins c (Datatypes.S k)) t) as [B'|B']; [lia|]. destruct (G _ B'). lia.
    + destruct (G _ B). congruence.
Qed.
(* Before the first check is over it does not say that it lives. *)
Theorem C102_not_live_at_first c x : sane c -> x < t0 c -> live c x false.
Proof. intros S X. left. split; [|reflexivity]. pose proof (ends_bounds c S 0). change (begins c 0) with (t0 c) in *. lia. Qed.

(* A minute between checks, half a minute for each; answered after 2 seconds,
   until 200. *)
Definition ex : setup := {| t0 := 0; period := 60; timeout := 30;
  answered := fun s => if s <? 200 then Some (2, true) else None; tie := fun _ => true |}.
Example C102_sane : sane ex.
Proof. split; [reflexivity|]. split; [discriminate|]. intros s d ok. cbn. destruct (s <? 200); [intros [= <- <-]; lia|discriminate]. Qed.
Example C102_meets : live ex 1 false /\ live ex 2 true /\ live ex 269 true /\ live ex 270 false /\
  forall x, 292 <= x -> live ex x false.
Proof.
  split; [left; split; reflexivity|]. split; [right; exists 0%nat; vm_compute; repeat split; discriminate|].
  split; [right; exists 3%nat; vm_compute; repeat split; discriminate|].
  split; [right; exists 4%nat; vm_compute; repeat split; discriminate|].
  intros x X. apply (C102_silence_is_noticed ex 202 C102_sane); [|cbn; lia].
  intros s d. cbn. destruct (Z.ltb_spec s 200); [intros [= <-]; lia|discriminate].
Qed.
Example C102_recovers : forall x, 65 <= x ->
  live {| t0 := 0; period := 60; timeout := 30; answered := fun s => if 2 <=? s then Some (3, true) else Some (99, true); tie := fun _ => true |} x true.
Proof.
  intros x X. apply (C102_answers_are_noticed _ 2 3); [|reflexivity|cbn; lia| |cbn; lia].
  - split; [reflexivity|]. split; [discriminate|]. intros s d ok. cbn. destruct (2 <=? s); intros [= <- <-]; lia.
  - intros s Hs. exists 3. cbn. destruct (Z.leb_spec 2 s); [split; [reflexivity|lia]|lia].
Qed.

(* Ready: from when it is in its group until it is told to terminate.  Told so
   before that, it is gone at once. *)
Lemma quiet es : forall r k, ~ In Joined es -> ~ In Sigterm es -> fold_left hstep es (Up r k) = Up r k.
Proof.
  induction es as [|e es IH]; intros r k J T; [reflexivity|]. cbn [In] in *. destruct e; try tauto. cbn. apply IH; tauto.
Qed.
Lemma gone es : fold_left hstep es Gone = Gone.
Proof. induction es; auto. Qed.
Lemma told es : ~ In Joined es -> fold_left hstep es (Up false true) = Up false true.
Proof. induction es as [|e es IH]; intros J; [reflexivity|]. cbn [In] in *. destruct e; try tauto; cbn; apply IH; tauto. Qed.
Theorem C102_ready_from_joining_to_terminating a b :
  ~ In Joined a -> ~ In Joined b ->
  (~ In Sigterm a -> ready a = Some 500%N /\
     (~ In Sigterm b -> ready (a ++ Joined :: b) = Some 200%N) /\
     (In Sigterm b -> ready (a ++ Joined :: b) = Some 500%N)) /\
  (In Sigterm a -> ready a = None /\ ready (a ++ Joined :: b) = None).
Proof.
  intros Ja Jb. unfold ready, after, started. rewrite fold_left_app. split.
  - intros Ta. rewrite (quiet a) by assumption. split; [reflexivity|]. cbn [fold_left hstep]. split.
    + intros Tb. rewrite quiet by assumption. reflexivity.
    + intros Tb. apply in_split in Tb as (b1 & b2 & E).
      assert (X : forall l r, In Sigterm l -> ~ In Joined l -> fold_left hstep l (Up r true) = Up false true).
      { clear. induction l as [|e l IH]; intros r M N; [contradiction|]. cbn [In] in *. destruct M as [M|M].
        - subst e. cbn. apply told. tauto.
        - destruct e; try tauto; cbn; [apply told; tauto|apply IH; tauto]. }
      rewrite X; [reflexivity|subst b; apply in_or_app; right; left; reflexivity|exact Jb].
  - intros Ta. assert (X : fold_left hstep a (Up false false) = Gone).
    { clear - Ta Ja. induction a as [|e a IH]; [contradiction|]. cbn [In] in *. destruct e; try tauto; cbn.
      - apply gone.
      - apply IH; [tauto|]. destruct Ta as [Ta|Ta]; [discriminate Ta|exact Ta]. }
    rewrite X. split; [reflexivity|]. cbn [fold_left hstep]. rewrite gone. reflexivity.
Qed.
Example C102_ready_meets :
  ready [LiveIs true] = Some 500%N /\ ready [LiveIs true; Joined; LiveIs true] = Some 200%N /\
  ready [LiveIs true; Joined; Sigterm; LiveIs true] = Some 500%N /\ ready [Sigterm; Joined] = None.
Proof. repeat split. Qed.
(* This is apart from its life: a host whose enclave has died says that it is
   ready; who asks must ask for both. *)
Theorem C102_ready_does_not_follow_life a b :
  ~ In Joined a -> ~ In Sigterm a -> ~ In Joined b -> ~ In Sigterm b ->
  ready (a ++ Joined :: b ++ [LiveIs false]) = Some 200%N.
Proof.
  intros. apply C102_ready_from_joining_to_terminating; try assumption;
  rewrite in_app_iff; cbn; intros [X|[X|X]]; first [contradiction|discriminate X].
Qed.

Print Assumptions C102_one_answer.
Print Assumptions C102_live_is_recent.
Print Assumptions C102_silence_is_noticed.
Print Assumptions C102_answers_are_noticed.
Print Assumptions C102_not_live_at_first.
Print Assumptions C102_ready_from_joining_to_terminating.
Print Assumptions C102_ready_does_not_follow_life.
