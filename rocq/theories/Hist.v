(* Histories: folding a step function that may crash over a list of inputs. *)
From Verif Require Export Base.

Section Hist.
Context {S O R : Type} (step : S -> O -> outcome (S * R)).

Fixpoint exec (s : S) (h : list O) : outcome (S * list R) :=
  match h with
  | [] => Ret (s, [])
  | o :: h' =>
      match step s o with
      | Crash => Crash
      | Ret (s', r) =>
          match exec s' h' with
          | Crash => Crash
          | Ret (s'', rs) => Ret (s'', r :: rs)
          end
      end
  end.

Lemma exec_app s h1 h2 :
  exec s (h1 ++ h2) =
  match exec s h1 with
  | Crash => Crash
  | Ret (s1, r1) =>
      match exec s1 h2 with
      | Crash => Crash
      | Ret (s2, r2) => Ret (s2, r1 ++ r2)
      end
  end.
Proof.
  revert s; induction h1 as [|o h1 IH]; intros s; cbn.
  - destruct (exec s h2) as [[s2 r2]|]; reflexivity.
  - destruct (step s o) as [[s' r]|]; [|reflexivity].
    rewrite IH. destruct (exec s' h1) as [[s1 r1]|]; [|reflexivity].
    destruct (exec s1 h2) as [[s2 r2]|]; reflexivity.
Qed.

Lemma exec_length s h s' rs : exec s h = Ret (s', rs) -> length rs = length h.
Proof.
  revert s s' rs; induction h as [|o h IH]; cbn; intros s s' rs H.
  - injection H as <- <-; reflexivity.
  - destruct (step s o) as [[s1 r]|]; [|discriminate].
    destruct (exec s1 h) as [[s2 r2]|] eqn:E; [|discriminate].
    injection H as <- <-; cbn; f_equal; eauto.
Qed.

(* lifting a one-step invariant *)
Lemma exec_inv (I : S -> Prop) :
  (forall s o, I s -> exists s' r, step s o = Ret (s', r) /\ I s') ->
  forall h s, I s -> exists s' rs, exec s h = Ret (s', rs) /\ I s'.
Proof.
  intros Hstep; induction h as [|o h IH]; intros s Hs; cbn.
  - eauto.
  - destruct (Hstep s o Hs) as [s1 [r [-> H1]]].
    destruct (IH s1 H1) as [s2 [rs [-> H2]]]; eauto.
Qed.

End Hist.
