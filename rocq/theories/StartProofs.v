From Verif Require Import Start StartSpec.

Lemma nth_set {A} i j (x : A) l : nth_error (set_nth i x l) j = if j =? i then match nth_error l i with Some _ => Some x | None => None end else nth_error l j.
Proof.
  revert i j. induction l as [|y l IH]; intros i j; [destruct i, j; cbn; try reflexivity; now destruct (_ =? _)|].
  destruct i as [|i], j as [|j]; cbn; try reflexivity. apply IH.
Qed.
(* what is known at each place *)
Definition pc_ok (s : enclave) (p : pc) : Prop :=
  match p with
  | PInit _ | PMsg _ => True
  | PParse _ => g s = Initiating
  | PEnv c => g s = Initiating
  | PCreate c => g s = Initiating /\ env s = Some (c_sim c)
  | PStore c _ => g s = Initiating /\ env s = Some (c_sim c)
  | PReady => g s = Initiating /\ exists c pid, cr s = Some (c, pid) /\ env s = Some (c_sim c)
  | PMsgParse _ => g s = Initiated
  | PRecv c e => g s = Initiated /\ c = cr s /\ e = env s
  | PDone (InitOK pid) => g s = Initiated /\ exists c, cr s = Some (c, pid)
  | PDone (Received c e) => g s = Initiated /\ c = cr s /\ e = env s
  | PDone Crashed => False
  | PDone _ => True
  end.
Record inv (s : enclave) : Prop := {
  i_pc : forall i p, nth_error (calls s) i = Some p -> pc_ok s p;
  i_one : forall i j p q, nth_error (calls s) i = Some p -> nth_error (calls s) j = Some q -> in_init p = true -> in_init q = true -> i = j;
  i_some : g s = Initiating -> exists i p, nth_error (calls s) i = Some p /\ in_init p = true;
  i_done : g s = Initiated -> (exists c pid, cr s = Some (c, pid) /\ env s = Some (c_sim c)) /\ exists i pid, answered s i (InitOK pid);
  i_ok1 : forall i j p q, answered s i (InitOK p) -> answered s j (InitOK q) -> i = j }.

Lemma inv0 : inv enclave0.
Proof. split; cbn; try discriminate; try (intros [|i]; discriminate); intros [|i] j; discriminate. Qed.

Lemma ok_frame s g' cr' env' cs' p : in_init p = false -> pc_ok s p -> g s <> Initiated -> g' <> Initiated -> pc_ok (Enclave g' cr' env' cs') p.
Proof. destruct p as [| | | | | | | | |[]]; cbn; try discriminate; try tauto; intros _ [A _]; contradiction || (intros; contradiction). Qed.
Lemma ok_same s cs' p : pc_ok s p -> pc_ok (Enclave (g s) (cr s) (env s) cs') p.
Proof. destruct p as [| | | | | | | | |[]]; cbn; auto. Qed.

Lemma nth_app_last {A} (l : list A) x m y : nth_error (l ++ [x]) m = Some y -> (m < length l /\ nth_error l m = Some y) \/ (m = length l /\ x = y).
Proof.
  intros H. destruct (Nat.lt_ge_cases m (length l)) as [L|L]; [left; rewrite nth_error_app1 in H by assumption; auto|].
  right. rewrite nth_error_app2 in H by assumption. destruct (m - length l) as [|[|k]] eqn:E; cbn in H; try discriminate. injection H as ->. split; [lia|reflexivity].
Qed.
Lemma inv_call s p : inv s -> (p = PInit None \/ exists c, p = PInit (Some c) \/ exists b, p = PMsg b) -> inv (Enclave (g s) (cr s) (env s) (calls s ++ [p])).
Proof.
  intros [Pc One Some_ Dn Ok1] P.
  assert (Q : in_init p = false /\ (forall s, pc_ok s p) /\ forall r, p <> PDone r) by (destruct P as [->|(c & [->|(b & ->)])]; repeat split; discriminate).
  destruct Q as (Q1 & Q2 & Q3). split; cbn [g cr env calls].
  - intros i q H. apply nth_app_last in H as [[L H]|[-> <-]]; [apply ok_same; eauto|auto].
  - intros i j a b A B Ia Ib. apply nth_app_last in A as [[La A]|[-> ->]]; [|congruence]. apply nth_app_last in B as [[Lb B]|[-> ->]]; [|congruence]. eauto.
  - intros G. destruct (Some_ G) as (i & q & A & B). exists i, q. split; [|assumption]. rewrite nth_error_app1; [assumption|]. apply nth_error_Some. congruence.
  - intros G. destruct (Dn G) as (A & i & pid & B). split; [assumption|]. exists i, pid. unfold answered in *. cbn. rewrite nth_error_app1; [assumption|]. apply nth_error_Some. congruence.
  - unfold answered. cbn [calls]. intros i j a b A B. apply nth_app_last in A as [[La A]|[-> A]]; [|now apply Q3 in A]. apply nth_app_last in B as [[Lb B]|[-> B]]; [|now apply Q3 in B]. eauto.
Qed.

(* call i goes on without a change of the shared state, and without getting into svr2_init's part or out of it *)
Lemma inv_quiet s i p p' : inv s -> nth_error (calls s) i = Some p -> in_init p = in_init p' -> (forall r, p <> PDone r) -> (forall pid, p' <> PDone (InitOK pid)) -> pc_ok s p' ->
  inv (Enclave (g s) (cr s) (env s) (set_nth i p' (calls s))).
Proof.
  intros [Pc One Some_ Dn Ok1] Hi Ii Np Np' Op'.
  assert (Nx : forall m q, nth_error (set_nth i p' (calls s)) m = Some q -> m = i /\ q = p' \/ m <> i /\ nth_error (calls s) m = Some q).
  { intros m q H. rewrite nth_set, Hi in H. destruct (Nat.eqb_spec m i) as [->|]; [left; split; congruence|auto]. }
  assert (Nk : forall m q, m <> i -> nth_error (calls s) m = Some q -> nth_error (set_nth i p' (calls s)) m = Some q).
  { intros m q N H. rewrite nth_set. now destruct (Nat.eqb_spec m i). }
  assert (Ns : nth_error (set_nth i p' (calls s)) i = Some p') by now rewrite nth_set, Nat.eqb_refl, Hi.
  split; cbn [g cr env calls].
  - intros m q H. apply Nx in H as [[-> ->]|[_ H]]; apply ok_same; eauto.
  - intros a b x y A B Ia Ib. apply Nx in A as [[-> ->]|[_ A]]; apply Nx in B as [[-> ->]|[_ B]]; eauto; (eapply One; [eassumption|eassumption|congruence|congruence]).
  - intros G. destruct (Some_ G) as (m & q & A & B). destruct (Nat.eq_dec m i) as [->|N]; [exists i, p'; split; [assumption|congruence]|exists m, q; auto].
  - intros G. destruct (Dn G) as (A & m & pid & B). split; [assumption|]. exists m, pid. unfold answered in *. cbn. apply Nk; [|assumption]. intros ->. rewrite Hi in B. injection B as ->. now apply (Np (InitOK pid)).
  - unfold answered. cbn [calls]. intros a b x y A B. apply Nx in A as [[_ A]|[_ A]]; [now destruct (Np' x)|]. apply Nx in B as [[_ B]|[_ B]]; [now destruct (Np' y)|]. eauto.
Qed.
(* call i, which is the one in svr2_init, goes on there *)
Lemma inv_init s i p p' g' cr' env' : inv s -> nth_error (calls s) i = Some p -> in_init p = true -> g s = Initiating -> g' <> Initiated ->
  (in_init p' = true -> g' = Initiating) -> (in_init p' = false -> g' = Uninit) -> (forall pid, p' <> PDone (InitOK pid)) ->
  pc_ok (Enclave g' cr' env' (set_nth i p' (calls s))) p' ->
  inv (Enclave g' cr' env' (set_nth i p' (calls s))).
Proof.
  intros [Pc One Some_ Dn Ok1] Hi Ii G G1 G2 G3 Np' Op'.
  assert (Nx : forall m q, nth_error (set_nth i p' (calls s)) m = Some q -> m = i /\ q = p' \/ m <> i /\ nth_error (calls s) m = Some q).
  { intros m q H. rewrite nth_set, Hi in H. destruct (Nat.eqb_spec m i) as [->|]; [left; split; congruence|auto]. }
  assert (Ns : nth_error (set_nth i p' (calls s)) i = Some p') by now rewrite nth_set, Nat.eqb_refl, Hi.
  assert (Ni : forall m q, m <> i -> nth_error (calls s) m = Some q -> in_init q = false).
  { intros m q N H. destruct (in_init q) eqn:Q; [|reflexivity]. destruct N. eapply One; eassumption. }
  split; cbn [g cr env calls].
  - intros m q H. apply Nx in H as [[-> ->]|[N H]]; [assumption|]. apply (ok_frame s); [eapply Ni; eassumption|eauto|congruence|assumption].
  - intros a b x y A B Ia Ib. apply Nx in A as [[-> ->]|[Na A]]; [|apply Ni in A; [congruence|assumption]]. apply Nx in B as [[-> ->]|[Nb B]]; [reflexivity|apply Ni in B; [congruence|assumption]].
  - intros Gi. exists i, p'. split; [assumption|]. destruct (in_init p') eqn:Q; [reflexivity|]. rewrite G3 in Gi by reflexivity. discriminate.
  - intros Gi. congruence.
  - unfold answered. cbn [calls]. intros a b x y A B. apply Nx in A as [[_ A]|[_ A]]; [now destruct (Np' x)|]. apply Pc in A as [A _]. congruence.
Qed.

Lemma inv_step s e s' : inv s -> step s e = Some s' -> inv s'.
Proof.
  intros I E. destruct e as [raw|b|i created]; cbn [step] in E.
  - injection E as <-. apply inv_call; [assumption|]. destruct raw as [c|]; [right; exists c; now left|now left].
  - injection E as <-. apply inv_call; [assumption|]. right. exists (Config false 0). right. now exists b.
  - destruct (nth_error (calls s) i) as [p|] eqn:Hi; [|discriminate]. pose proof (i_pc s I i p Hi) as Op.
    destruct p as [raw|[c|]|c|c|c pid| |b|[]|c e|r]; cbn [step_pc] in E.
    + destruct (g s) eqn:G; injection E as <-.
      * assert (Nx : forall m q, nth_error (set_nth i (PParse raw) (calls s)) m = Some q -> m = i /\ q = PParse raw \/ m <> i /\ nth_error (calls s) m = Some q).
        { intros m q H. rewrite nth_set, Hi in H. destruct (Nat.eqb_spec m i) as [->|]; [left; split; congruence|auto]. }
        assert (Ni : forall m q, nth_error (calls s) m = Some q -> in_init q = false).
        { intros m q H. destruct (in_init q) eqn:Q; [|reflexivity]. pose proof (i_pc s I m q H) as O. destruct q; try discriminate Q; cbn in O; intuition congruence. }
        split; cbn [g cr env calls].
        -- intros m q H. apply Nx in H as [[-> ->]|[N H]]; [reflexivity|]. apply (ok_frame s); [eapply Ni; eassumption|eapply i_pc; eassumption|congruence|discriminate].
        -- intros a b x y A B Ia Ib. apply Nx in A as [[-> ->]|[Na A]]; [|apply Ni in A; congruence]. apply Nx in B as [[-> ->]|[Nb B]]; [reflexivity|apply Ni in B; congruence].
        -- intros _. exists i, (PParse raw). split; [now rewrite nth_set, Nat.eqb_refl, Hi|reflexivity].
        -- discriminate.
        -- unfold answered. cbn [calls]. intros a b x y A B. apply Nx in A as [[_ A]|[_ A]]; [discriminate A|]. apply (i_pc s I) in A as [A _]. congruence.
      * rewrite <- G. eapply inv_quiet; try eassumption; try discriminate; reflexivity.
      * rewrite <- G. eapply inv_quiet; try eassumption; try discriminate; reflexivity.
    + injection E as <-. cbn in Op. eapply inv_quiet; try eassumption; try discriminate; reflexivity.
    + injection E as <-. cbn in Op. eapply inv_init; try eassumption; try discriminate; reflexivity.
    + injection E as <-. cbn in Op. eapply inv_init; try eassumption; try discriminate; try reflexivity; [congruence|now intros _|now split].
    + destruct Op as [G Ev]. rewrite Ev in E. destruct created as [e|pid]; injection E as <-; rewrite <- Ev.
      * eapply inv_init; try eassumption; try discriminate; reflexivity.
      * eapply inv_quiet; try eassumption; try discriminate; [reflexivity|now split].
    + destruct Op as [G Ev]. injection E as <-. eapply inv_init; try eassumption; try discriminate; try reflexivity; [congruence|now intros _|].
      cbn. split; [assumption|]. exists c, pid. auto.
    + destruct Op as (G & c & pid & C & Ev). rewrite C in E. injection E as <-. rewrite <- C.
      assert (Nx : forall m q, nth_error (set_nth i (PDone (InitOK pid)) (calls s)) m = Some q -> m = i /\ q = PDone (InitOK pid) \/ m <> i /\ nth_error (calls s) m = Some q).
      { intros m q H. rewrite nth_set, Hi in H. destruct (Nat.eqb_spec m i) as [->|]; [left; split; congruence|auto]. }
      assert (Ni : forall m q, m <> i -> nth_error (calls s) m = Some q -> in_init q = false).
      { intros m q N H. destruct (in_init q) eqn:Q; [|reflexivity]. destruct N. eapply (i_one s I); [eassumption|eassumption|assumption|reflexivity]. }
      split; cbn [g cr env calls].
      * intros m q H. apply Nx in H as [[-> ->]|[N H]]; [cbn; split; [reflexivity|now exists c]|].
        pose proof (Ni _ _ N H) as Q. pose proof (i_pc s I _ _ H) as O. destruct q as [| | | | | | | | |[]]; try discriminate Q; cbn in *; auto; intuition congruence.
      * intros a b x y A B Ia Ib. apply Nx in A as [[-> ->]|[Na A]]; [discriminate Ia|apply Ni in A; congruence].
      * discriminate.
      * intros _. split; [now exists c, pid|]. exists i, pid. unfold answered. cbn. now rewrite nth_set, Nat.eqb_refl, Hi.
      * unfold answered. cbn [calls]. intros a b x y A B. apply Nx in A as [[-> _]|[_ A]]; [|apply (i_pc s I) in A as [A _]; congruence].
        apply Nx in B as [[-> _]|[_ B]]; [reflexivity|apply (i_pc s I) in B as [B _]; congruence].
    + destruct (g s) eqn:G; injection E as <-; rewrite <- G; eapply inv_quiet; try eassumption; try discriminate; try reflexivity.
    + destruct (i_done s I Op) as ((c & pid & C & Ev) & _). rewrite C, Ev in E. injection E as <-. rewrite <- C, <- Ev. eapply inv_quiet; try eassumption; try discriminate; [reflexivity|now cbn].
    + injection E as <-. eapply inv_quiet; try eassumption; try discriminate; reflexivity.
    + injection E as <-. eapply inv_quiet; try eassumption; try discriminate; reflexivity.
    + discriminate.
Qed.
Lemma inv_run es : forall s s', inv s -> run s es = Some s' -> inv s'.
Proof.
  induction es as [|e es IH]; cbn; intros s s' I H; [now injection H as <-|]. destruct (step s e) as [s1|] eqn:E; [|discriminate]. eapply IH; [eapply inv_step; eassumption|exact H].
Qed.
Lemma inv_reach s : reachable s -> inv s.
Proof. intros (es & H). eapply inv_run; [apply inv0|exact H]. Qed.
Lemma initiated_step s e s' : inv s -> g s = Initiated -> step s e = Some s' -> g s' = Initiated /\ cr s' = cr s /\ env s' = env s.
Proof.
  intros I G E. destruct e as [raw|b|i created]; cbn [step] in E; try (injection E as <-; auto).
  destruct (nth_error (calls s) i) as [p|] eqn:Hi; [|discriminate]. pose proof (i_pc s I i p Hi) as Op.
  destruct p as [raw|[c|]|c|c|c pid| |b|[]|c e|r]; cbn [step_pc pc_ok] in E, Op; try (exfalso; intuition congruence).
  - rewrite G in E. injection E as <-. auto.
  - rewrite G in E. injection E as <-. auto.
  - destruct (i_done s I G) as ((c & pid & C & Ev) & _). rewrite C, Ev in E. injection E as <-. cbn. auto.
  - injection E as <-. auto.
  - injection E as <-. auto.
Qed.
Lemma initiated_run es : forall s s', inv s -> g s = Initiated -> run s es = Some s' -> g s' = Initiated /\ cr s' = cr s /\ env s' = env s.
Proof.
  induction es as [|e es IH]; cbn; intros s s' I G H; [injection H as <-; auto|]. destruct (step s e) as [s1|] eqn:E; [|discriminate].
  destruct (initiated_step _ _ _ I G E) as (A & B & C). destruct (IH s1 s' (inv_step _ _ _ I E) A H) as (A' & B' & C'). split; [assumption|]. split; congruence.
Qed.
