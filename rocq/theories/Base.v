(* Common vocabulary of the model: byte strings, their order, outcomes. *)
From Coq Require Export List NArith ZArith Bool Lia Arith.
From Coq Require Export ZifyBool ZifyNat ZifyN.
Export ListNotations.
Open Scope N_scope.

(* A C++ std::string / std::array<uint8_t,n> / protobuf `bytes`: a list of
   bytes.  Elements are N; [bytes_ok] says each is below 256. *)
Definition bytes := list N.
Definition byte_ok (b : N) : bool := b <? 256.
Definition bytes_ok (s : bytes) : bool := forallb byte_ok s.

(* Length as N, for comparisons with size constants. *)
Definition blen (s : bytes) : N := N.of_nat (length s).

(* A computation that either returns or trips a CHECK / undefined behaviour
   (util/macros.h CHECK aborts the enclave). *)
Inductive outcome (A : Type) := Ret (a : A) | Crash.
Arguments Ret {A} _.
Arguments Crash {A}.

(* operator== on std::string / std::array. *)
Fixpoint beq (a b : bytes) : bool :=
  match a, b with
  | [], [] => true
  | x :: a', y :: b' => (x =? y) && beq a' b'
  | _, _ => false
  end.

(* operator< on std::array<uint8_t,n> and std::string: lexicographic by
   unsigned byte, a proper prefix is smaller. *)
Fixpoint bcmp (a b : bytes) : comparison :=
  match a, b with
  | [], [] => Eq
  | [], _ :: _ => Lt
  | _ :: _, [] => Gt
  | x :: a', y :: b' =>
      match x ?= y with Eq => bcmp a' b' | c => c end
  end.

Definition blt (a b : bytes) : bool :=
  match bcmp a b with Lt => true | _ => false end.
Definition ble (a b : bytes) : bool :=
  match bcmp a b with Gt => false | _ => true end.

Definition ret_or {A} (d : A) (o : outcome A) : A :=
  match o with Ret a => a | Crash => d end.

Lemma beq_eq a b : beq a b = true <-> a = b.
Proof.
  revert b; induction a as [|x a IH]; intros [|y b]; cbn; split; try congruence.
  - intros H; apply andb_true_iff in H as [H1 H2].
    apply N.eqb_eq in H1; apply IH in H2; congruence.
  - intros H; injection H as -> ->; rewrite N.eqb_refl; cbn; now apply IH.
Qed.

Lemma beq_refl a : beq a a = true.
Proof. now apply beq_eq. Qed.

Lemma beq_neq a b : beq a b = false <-> a <> b.
Proof.
  split; intros H.
  - intros ->; rewrite beq_refl in H; discriminate.
  - destruct (beq a b) eqn:E; [apply beq_eq in E; contradiction | reflexivity].
Qed.

Lemma beq_sym a b : beq a b = beq b a.
Proof.
  destruct (beq a b) eqn:E.
  - apply beq_eq in E; subst; now rewrite beq_refl.
  - symmetry; apply beq_neq; apply beq_neq in E; congruence.
Qed.

Lemma beq_spec a b : reflect (a = b) (beq a b).
Proof.
  destruct (beq a b) eqn:E; constructor;
    [now apply beq_eq | now apply beq_neq].
Qed.

Lemma bcmp_eq a b : bcmp a b = Eq <-> a = b.
Proof.
  revert b; induction a as [|x a IH]; intros [|y b]; cbn; split; try congruence.
  - destruct (N.compare_spec x y) as [->| |]; try discriminate.
    intros H; apply IH in H; congruence.
  - intros H; injection H as -> ->; rewrite N.compare_refl; now apply IH.
Qed.

Lemma bcmp_refl a : bcmp a a = Eq.
Proof. now apply bcmp_eq. Qed.

Lemma bcmp_antisym a b : bcmp b a = CompOpp (bcmp a b).
Proof.
  revert b; induction a as [|x a IH]; intros [|y b]; cbn; try reflexivity.
  rewrite N.compare_antisym; destruct (x ?= y); cbn; auto.
Qed.

Lemma bcmp_trans_lt a b c : bcmp a b = Lt -> bcmp b c = Lt -> bcmp a c = Lt.
Proof.
  revert b c; induction a as [|x a IH]; intros [|y b] [|z c]; cbn; try congruence.
  destruct (N.compare_spec x y) as [Hxy|Hxy|Hxy]; try discriminate;
  destruct (N.compare_spec y z) as [Hyz|Hyz|Hyz]; try discriminate;
  destruct (N.compare_spec x z) as [Hxz|Hxz|Hxz]; try lia; try congruence.
  apply IH.
Qed.

Lemma blt_lt a b : blt a b = true <-> bcmp a b = Lt.
Proof. unfold blt; destruct (bcmp a b); split; congruence. Qed.

Lemma blt_trans a b c : blt a b = true -> blt b c = true -> blt a c = true.
Proof. rewrite !blt_lt; apply bcmp_trans_lt. Qed.

Lemma blt_irrefl a : blt a a = false.
Proof. unfold blt; now rewrite bcmp_refl. Qed.

Lemma blt_neq a b : blt a b = true -> a <> b.
Proof. intros H ->; rewrite blt_irrefl in H; discriminate. Qed.

Lemma blt_asym a b : blt a b = true -> blt b a = false.
Proof.
  intros H; destruct (blt b a) eqn:E; [|reflexivity].
  pose proof (blt_trans _ _ _ H E) as Hc; rewrite blt_irrefl in Hc; discriminate.
Qed.

Lemma ble_nblt a b : ble a b = negb (blt b a).
Proof. unfold ble, blt; rewrite (bcmp_antisym a b); destruct (bcmp a b); reflexivity. Qed.

Lemma ble_total_lt a b : ble a b = true <-> (a = b \/ blt a b = true).
Proof.
  unfold ble, blt; destruct (bcmp a b) eqn:E; split; intros H; try congruence; auto.
  - left; now apply bcmp_eq.
  - destruct H as [->|H]; [rewrite bcmp_refl in E|]; congruence.
Qed.

Lemma bcmp_nil_l b : b <> [] -> bcmp [] b = Lt.
Proof. destruct b; cbn; congruence. Qed.

Lemma blt_nil_r a : blt a [] = false.
Proof. destruct a; reflexivity. Qed.

Ltac Zify.zify_post_hook ::= Z.div_mod_to_equations.
