(* Machines whose every input concerns one key: projection of a run onto one
   key, shared by the four database models. *)
From Verif Require Export Base Hist.

Lemma filter_split {A} (f : A -> bool) (h : list A) a x b :
  filter f h = a ++ x :: b ->
  exists h1 h2, h = h1 ++ x :: h2 /\ filter f h1 = a /\ filter f h2 = b.
Proof.
  revert a; induction h as [|y h IH]; intros a H; cbn in H.
  - destruct a; discriminate.
  - destruct (f y) eqn:E.
    + destruct a as [|z a].
      * cbn in H; injection H as <- <-. exists [], h; cbn; auto.
      * cbn in H; injection H as <- H. destruct (IH a H) as [h1 [h2 [-> [H1 H2]]]].
        exists (y :: h1), h2; cbn; rewrite E, H1; auto.
    + destruct (IH a H) as [h1 [h2 [-> [H1 H2]]]].
      exists (y :: h1), h2; cbn; rewrite E; auto.
Qed.

Section Keyed.
Context {S O R A : Type}.
Variable step : S -> O -> outcome (S * R).
Variable key : O -> bytes.
Variable view : bytes -> S -> A.
Variable astep : A -> O -> A * R.

Fixpoint arun (a : A) (h : list O) : A * list R :=
  match h with
  | [] => (a, [])
  | o :: h' => let (a1, r) := astep a o in
               let (a2, rs) := arun a1 h' in (a2, r :: rs)
  end.

Definition mine (k : bytes) (o : O) : bool := beq (key o) k.
Definition pick (k : bytes) (h : list O) (rs : list R) : list R :=
  map snd (filter (fun p => mine k (fst p)) (combine h rs)).

Lemma arun_app a h1 h2 :
  arun a (h1 ++ h2) =
  let (a1, r1) := arun a h1 in let (a2, r2) := arun a1 h2 in (a2, r1 ++ r2).
Proof.
  revert a; induction h1 as [|o h1 IH]; intros a; cbn.
  - destruct (arun a h2); reflexivity.
  - destruct (astep a o) as [a1 r]; rewrite IH.
    destruct (arun a1 h1) as [a2 r2]; destruct (arun a2 h2); reflexivity.
Qed.

Lemma arun_snoc a h o :
  arun a (h ++ [o]) =
  let (a1, r1) := arun a h in let (a2, r2) := astep a1 o in (a2, r1 ++ [r2]).
Proof.
  rewrite arun_app; destruct (arun a h) as [a1 r1]; cbn; destruct (astep a1 o); reflexivity.
Qed.

Variable Inv : S -> Prop.
Hypothesis Hstep : forall s o, Inv s -> exists s' r,
  step s o = Ret (s', r) /\ Inv s' /\
  astep (view (key o) s) o = (view (key o) s', r) /\
  (forall k, k <> key o -> view k s' = view k s).

Lemma exec_ok h s : Inv s -> exists s' rs, exec step s h = Ret (s', rs) /\ Inv s'.
Proof.
  apply exec_inv; intros s0 o H; destruct (Hstep s0 o H) as [s' [r [H1 [H2 _]]]]; eauto.
Qed.

Lemma exec_project h s s' rs k : Inv s ->
  exec step s h = Ret (s', rs) ->
  arun (view k s) (filter (mine k) h) = (view k s', pick k h rs).
Proof.
  revert s s' rs; induction h as [|o h IH]; intros s s' rs HI H; cbn in H.
  - injection H as <- <-; reflexivity.
  - destruct (Hstep s o HI) as [s1 [r [E1 [HI1 [Ea Hother]]]]].
    rewrite E1 in H. destruct (exec step s1 h) as [[s2 r2]|] eqn:E2; [|discriminate].
    injection H as <- <-. specialize (IH s1 s2 r2 HI1 E2).
    unfold pick; cbn. destruct (mine k o) eqn:Em; unfold mine in Em;
      destruct (beq_spec (key o) k) as [Ek|Hne]; try discriminate.
    + subst k. cbn. rewrite Ea, IH. reflexivity.
    + rewrite <- (Hother k) by congruence. exact IH.
Qed.

(* The last answer of a run is the answer of the projected run. *)
Lemma exec_project_last h o s s' rs : Inv s ->
  exec step s (h ++ [o]) = Ret (s', rs) ->
  exists rs0 r, rs = rs0 ++ [r] /\
  astep (fst (arun (view (key o) s) (filter (mine (key o)) h))) o = (view (key o) s', r).
Proof.
  intros HI H. rewrite exec_app in H.
  destruct (exec step s h) as [[s1 r1]|] eqn:E1; [|discriminate].
  cbn in H. destruct (exec_ok h s HI) as [s1' [r1' [E1' HI1]]].
  rewrite E1 in E1'; injection E1' as <- <-.
  destruct (Hstep s1 o HI1) as [s2 [r [E2 [_ [Ea _]]]]].
  rewrite E2 in H; injection H as <- <-.
  exists r1, r; split; [reflexivity|].
  rewrite (exec_project h s s1 r1 (key o) HI E1); exact Ea.
Qed.

(* Non-interference: deleting every input for other keys does not change the
   answers, nor the state of this key. *)
Lemma exec_noninterference h s k s1 rs1 s2 rs2 : Inv s ->
  exec step s h = Ret (s1, rs1) ->
  exec step s (filter (mine k) h) = Ret (s2, rs2) ->
  rs2 = pick k h rs1 /\ view k s2 = view k s1.
Proof.
  intros HI H1 H2.
  pose proof (exec_project _ _ _ _ k HI H1) as P1.
  pose proof (exec_project _ _ _ _ k HI H2) as P2.
  assert (F : filter (mine k) (filter (mine k) h) = filter (mine k) h).
  { clear. induction h as [|o h IH]; cbn; [reflexivity|].
    destruct (mine k o) eqn:E; cbn; rewrite ?E, IH; reflexivity. }
  rewrite F, P1 in P2. injection P2 as E1 E2. split; [|congruence].
  rewrite E2. unfold pick.
  assert (L : length rs2 = length (filter (mine k) h)) by (eapply exec_length; eauto).
  clear -L. revert rs2 L; induction h as [|o h IH]; intros rs2 L; cbn in *.
  - destruct rs2; [reflexivity|discriminate].
  - destruct (mine k o) eqn:E; cbn in *; [|auto].
    destruct rs2 as [|r rs2]; [discriminate|]; cbn in *. rewrite E; cbn.
    f_equal; apply IH; lia.
Qed.

End Keyed.
