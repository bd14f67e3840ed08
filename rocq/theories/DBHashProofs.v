From Verif Require Import DBCommon UtilProofs.

Lemma be64_len v : length (be64 v) = 8%nat. Proof. reflexivity. Qed.

Lemma app_len_inj {A} (a b c d : list A) : length a = length c -> a ++ b = c ++ d -> a = c /\ b = d.
Proof.
  revert c; induction a as [|x a IH]; intros [|y c] Hlen E; cbn in *; try discriminate; auto.
  injection E as -> E. destruct (IH c) as [-> ->]; auto.
Qed.

Definition collision (f : bytes -> bytes) : Prop := exists x y, x <> y /\ f x = f y.

Lemma bytes_dec (x y : bytes) : {x = y} + {x <> y}.
Proof. apply list_eq_dec, N.eq_dec. Qed.

Lemma flat_sip_inj sip16 l1 l2 : (forall x, length (sip16 x) = 16%nat) ->
  flat_map sip16 l1 = flat_map sip16 l2 -> l1 = l2 \/ collision sip16.
Proof.
  intros HL; revert l2; induction l1 as [|a l1 IH]; intros [|b l2] E; auto.
  - cbn in E. assert (Hl := HL b). destruct (sip16 b); [discriminate Hl|discriminate E].
  - cbn in E. assert (Hl := HL a). destruct (sip16 a); [discriminate Hl|discriminate E].
  - cbn in E. apply app_len_inj in E as [E1 E2]; [|now rewrite !HL].
    destruct (IH l2 E2) as [->|]; [|auto].
    destruct (bytes_dec a b) as [->|Hne]; [auto|right; exists a, b; auto].
Qed.

Lemma db_hash_inj sip16 sha256 l1 l2 : (forall x, length (sip16 x) = 16%nat) ->
  db_hash sip16 sha256 l1 = db_hash sip16 sha256 l2 ->
  l1 = l2 \/ collision sip16 \/ collision sha256.
Proof.
  intros HL E; unfold db_hash in E.
  set (x := be64 _ ++ flat_map sip16 l1) in E. set (y := be64 _ ++ flat_map sip16 l2) in E.
  destruct (bytes_dec x y) as [Exy|Hne]; [|right; right; exists x, y; auto].
  subst x y. apply app_len_inj in Exy as [_ Exy]; [|reflexivity].
  destruct (flat_sip_inj sip16 l1 l2 HL Exy); auto.
Qed.
