(* Words for stating what a history of inputs contains. *)
From Verif Require Export Base.

Definition none_of {A} (p : A -> bool) (h : list A) : Prop := forall x, In x h -> p x = false.
Definition count {A} (p : A -> bool) (h : list A) : N := N.of_nat (length (filter p h)).
Definition last_answer {R} (rs : list (option R)) : option R := last rs None.

Lemma none_of_app {A} (p : A -> bool) a b : none_of p (a ++ b) <-> none_of p a /\ none_of p b.
Proof. unfold none_of; setoid_rewrite in_app_iff; firstorder. Qed.
Lemma none_of_cons {A} (p : A -> bool) a b : none_of p (a :: b) <-> p a = false /\ none_of p b.
Proof. unfold none_of; cbn; firstorder; subst; auto. Qed.
Lemma none_of_filter {A} (p f : A -> bool) h : none_of p h -> none_of p (filter f h).
Proof. unfold none_of; intros H x Hx; apply filter_In in Hx; apply H; tauto. Qed.

Lemma count_cons {A} (p : A -> bool) x h : count p (x :: h) = (if p x then 1 else 0) + count p h.
Proof. unfold count; cbn; destruct (p x); cbn [length]; lia. Qed.
Lemma count_app {A} (p : A -> bool) a b : count p (a ++ b) = count p a + count p b.
Proof. unfold count; rewrite filter_app, app_length; lia. Qed.
Lemma count_filter {A} (p f : A -> bool) h :
  (forall x, p x = true -> f x = true) -> count p (filter f h) = count p h.
Proof.
  intros H; induction h as [|x h IH]; [reflexivity|]; cbn [filter].
  rewrite count_cons. destruct (f x) eqn:E.
  - rewrite count_cons, IH; reflexivity.
  - destruct (p x) eqn:Ep; [now rewrite (H x Ep) in E|]. rewrite IH; lia.
Qed.

Lemma none_of_unfilter {A} (p f : A -> bool) h : (forall x, p x = true -> f x = true) ->
  none_of p (filter f h) -> none_of p h.
Proof.
  intros Hpf H x Hx; destruct (p x) eqn:E; [|reflexivity].
  rewrite <- E; apply H, filter_In; auto.
Qed.
