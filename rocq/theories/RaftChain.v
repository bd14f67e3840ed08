From Verif Require Import RaftLog Raft RaftSpec RaftLogProofs UtilProofs.

(* --- prefixes ------------------------------------------------------------- *)
Lemma prefix_refl {A} (a : list A) : prefix a a. Proof. exists []; now rewrite app_nil_r. Qed.
Lemma prefix_nil {A} (a : list A) : prefix [] a. Proof. now exists a. Qed.
Lemma prefix_trans {A} (a b c : list A) : prefix a b -> prefix b c -> prefix a c.
Proof. intros [x ->] [y ->]; exists (x ++ y); now rewrite app_assoc. Qed.
Lemma prefix_app {A} (a b : list A) : prefix a (a ++ b). Proof. now exists b. Qed.
Lemma prefix_upto {A} i (a : list A) : prefix (upto i a) a.
Proof. exists (skipn (N.to_nat i) a); symmetry; apply firstn_skipn. Qed.
Lemma prefix_len {A} (a b : list A) : prefix a b -> (length a <= length b)%nat.
Proof. intros [c ->]; rewrite app_length; lia. Qed.
Lemma prefix_firstn {A} (a b : list A) : prefix a b -> a = firstn (length a) b.
Proof. intros [c ->]. rewrite firstn_app, Nat.sub_diag, firstn_all. cbn; now rewrite app_nil_r. Qed.
Lemma prefix_linear {A} (a b c : list A) : prefix a c -> prefix b c -> prefix a b \/ prefix b a.
Proof.
  intros Ha Hb. apply prefix_firstn in Ha, Hb.
  destruct (Nat.le_ge_cases (length a) (length b)) as [H|H].
  - left. exists (skipn (length a) b). rewrite Ha at 1. rewrite Hb at 2.
    replace (firstn (length a) c) with (firstn (length a) b).
    + rewrite <- Hb; symmetry; apply firstn_skipn.
    + rewrite Hb, firstn_firstn. f_equal; lia.
  - right. exists (skipn (length b) a). rewrite Hb at 1. rewrite Ha at 2.
    replace (firstn (length b) c) with (firstn (length b) a).
    + rewrite <- Ha; symmetry; apply firstn_skipn.
    + rewrite Ha, firstn_firstn. f_equal; lia.
Qed.
Lemma upto_le {A} i j (a : list A) : i <= j -> prefix (upto i a) (upto j a).
Proof.
  intros H. unfold upto. exists (skipn (N.to_nat i) (firstn (N.to_nat j) a)).
  replace (firstn (N.to_nat i) a) with (firstn (N.to_nat i) (firstn (N.to_nat j) a)).
  - symmetry; apply firstn_skipn.
  - rewrite firstn_firstn; f_equal; lia.
Qed.
Lemma upto_all {A} i (a : list A) : llen a <= i -> upto i a = a.
Proof. unfold upto, llen; intros H; apply firstn_all2; lia. Qed.
Lemma upto_app {A} i (a b : list A) : i <= llen a -> upto i (a ++ b) = upto i a.
Proof. unfold upto, llen; intros H. rewrite firstn_app. replace (_ - _)%nat with 0%nat by lia. cbn; now rewrite app_nil_r. Qed.
Lemma upto_upto {A} i j (a : list A) : i <= j -> upto i (upto j a) = upto i a.
Proof. unfold upto; intros H. rewrite firstn_firstn; f_equal; lia. Qed.
Lemma upto_len {A} i (a : list A) : i <= llen a -> llen (upto i a) = i.
Proof. unfold upto, llen; intros H. rewrite firstn_length. lia. Qed.
Lemma upto_mono {A} i j (a b : list A) : i <= j -> upto j a = upto j b -> upto i a = upto i b.
Proof. intros H E. rewrite <- (upto_upto i j a H), E. now apply upto_upto. Qed.
Lemma upto_nth {A} i j (a b : list A) : upto j a = upto j b -> i <= j -> nth_entry a i = nth_entry b i.
Proof.
  intros E H. unfold nth_entry. destruct (i =? 0) eqn:E0; [reflexivity|].
  assert (Hn : forall x : list A, nth_error x (N.to_nat (i - 1)) = nth_error (upto j x) (N.to_nat (i - 1))).
  { intros x. unfold upto. rewrite <- (firstn_skipn (N.to_nat j) x) at 1.
    destruct (Nat.lt_ge_cases (N.to_nat (i - 1)) (length (firstn (N.to_nat j) x))) as [Hl|Hl].
    - now rewrite nth_error_app1.
    - rewrite firstn_length in Hl. rewrite firstn_all2 by lia. rewrite skipn_all2 by lia. now rewrite app_nil_r. }
  now rewrite (Hn a), (Hn b), E.
Qed.
Lemma prefix_upto_eq {A} i (a b : list A) : prefix a b -> i <= llen a -> upto i a = upto i b.
Proof. intros [c ->] H. symmetry; now apply upto_app. Qed.
Lemma upto_0 {A} (a : list A) : upto 0 a = []. Proof. reflexivity. Qed.
Lemma upto_succ {A} i (a : list A) e : nth_entry a (i + 1) = Some e -> upto (i + 1) a = upto i a ++ [e].
Proof.
  unfold nth_entry, upto. destruct (i + 1 =? 0) eqn:E; [lia|]. replace (i + 1 - 1) with i by lia.
  replace (N.to_nat (i + 1)) with (S (N.to_nat i)) by lia. generalize (N.to_nat i); clear. intros n.
  revert a; induction n as [|n IH]; intros [|x a] H; try discriminate.
  - cbn in *; congruence.
  - cbn [firstn]. cbn [nth_error] in H. change (firstn (S n) (x :: a)) with (x :: firstn n a).
    cbn [app]. f_equal. apply IH in H. exact H.
Qed.
Lemma nth_entry_len {A} (a : list A) i e : nth_entry a i = Some e -> 0 < i /\ i <= llen a.
Proof.
  unfold nth_entry, llen. destruct (i =? 0) eqn:E; [discriminate|]. intros H.
  assert (N.to_nat (i - 1) < length a)%nat by (apply nth_error_Some; congruence). lia.
Qed.
Lemma nth_entry_some {A} (a : list A) i : 0 < i -> i <= llen a -> exists e, nth_entry a i = Some e.
Proof.
  unfold nth_entry, llen. intros H1 H2. destruct (i =? 0) eqn:E; [lia|].
  destruct (nth_error a (N.to_nat (i - 1))) eqn:En; [eauto|]. apply nth_error_None in En. lia.
Qed.
Lemma nth_entry_app_last {A} (a : list A) e : nth_entry (a ++ [e]) (llen a + 1) = Some e.
Proof.
  unfold nth_entry, llen. destruct (_ =? 0) eqn:E; [lia|].
  replace (N.to_nat _) with (length a) by lia. rewrite nth_error_app2, Nat.sub_diag by lia. reflexivity.
Qed.
Lemma llen_app {A} (a b : list A) : llen (a ++ b) = llen a + llen b.
Proof. unfold llen; rewrite app_length; lia. Qed.
Lemma eq_of_upto {A} (a b : list A) : llen a = llen b -> upto (llen a) a = upto (llen a) b -> a = b.
Proof. intros Hl E. rewrite upto_all in E by lia. rewrite upto_all in E by lia. assumption. Qed.

(* --- hash chains ---------------------------------------------------------- *)
Section Chain.
Variable hmac : bytes -> bytes -> bytes.

Definition tip (A : list entry) : bytes := last (map e_hash A) (zeros 32).
Lemma tip_snoc A e : tip (A ++ [e]) = e_hash e.
Proof. unfold tip; rewrite map_app; cbn; apply last_last. Qed.
Lemma tip_prev A : tip A = prev_hash A (length A).
Proof.
  destruct A as [|e A] using rev_ind; [reflexivity|]. rewrite tip_snoc, app_length; cbn [length].
  rewrite Nat.add_1_r; cbn [prev_hash]. now rewrite nth_error_app2, Nat.sub_diag by lia.
Qed.

Lemma chained_from_app i p A B : chained_from hmac i p (A ++ B) <->
  chained_from hmac i p A /\ chained_from hmac (i + llen A) (last (map e_hash A) p) B.
Proof.
  revert i p; induction A as [|e A IH]; intros i p; cbn [app chained_from].
  - unfold llen; cbn. rewrite N.add_0_r; tauto.
  - rewrite IH. unfold llen; cbn [length]. replace (i + 1 + N.of_nat (length A)) with (i + N.of_nat (S (length A))) by lia.
    replace (last (map e_hash (e :: A)) p) with (last (map e_hash A) (e_hash e)); [tauto|].
    clear. cbn [map]. generalize (map e_hash A) (e_hash e); intros l x. revert x p; induction l as [|y l IH]; intros x p; [reflexivity|].
    cbn [last]. destruct l; [reflexivity|]. exact (IH y p) || apply IH.
Qed.
Definition fits (i : N) (p : bytes) (e : entry) : Prop :=
  e_hash e = hmac p (tagged (e_inner e) i (e_term e)) /\ length (e_hash e) = 32%nat /\ e_term e <> 0.
Lemma chained_snoc A e : chained hmac (A ++ [e]) <-> chained hmac A /\ fits (llen A + 1) (tip A) e.
Proof.
  unfold chained. rewrite chained_from_app. cbn [chained_from]. unfold fits, tip.
  rewrite (N.add_comm 1). tauto.
Qed.
Lemma chained_nil : chained hmac []. Proof. exact I. Qed.
Lemma chained_app A B : chained hmac (A ++ B) -> chained hmac A.
Proof. unfold chained; rewrite chained_from_app; tauto. Qed.
Lemma chained_prefix A B : prefix A B -> chained hmac B -> chained hmac A.
Proof. intros [C ->]; apply chained_app. Qed.
Lemma chained_upto i A : chained hmac A -> chained hmac (upto i A).
Proof. apply chained_prefix, prefix_upto. Qed.
Lemma chained_nth A j e : chained hmac A -> nth_error A j = Some e ->
  fits (N.of_nat j + 1) (prev_hash A j) e.
Proof.
  intros Hc Hj. destruct (nth_error_split A j Hj) as [l1 [l2 [-> Hl]]].
  unfold chained in Hc. rewrite chained_from_app in Hc. destruct Hc as [_ Hc]. cbn [chained_from] in Hc.
  assert (Ep : prev_hash (l1 ++ e :: l2) j = last (map e_hash l1) (zeros 32)).
  { subst j. destruct l1 as [|x l1] using rev_ind; [reflexivity|].
    rewrite app_length; cbn [length]. rewrite Nat.add_1_r; cbn [prev_hash].
    rewrite <- app_assoc; cbn [app]. rewrite nth_error_app2, Nat.sub_diag by lia. cbn [nth_error].
    rewrite map_app; cbn [map]. now rewrite last_last. }
  rewrite Ep. unfold fits. replace (N.of_nat j + 1) with (1 + llen l1) by (unfold llen; lia). tauto.
Qed.
Lemma chained_hash_len A e : chained hmac A -> In e A -> length (e_hash e) = 32%nat /\ e_term e <> 0.
Proof. intros H Hin. apply In_nth_error in Hin as [j Hj]. destruct (chained_nth A j e H Hj) as [_ ?]; auto. Qed.

Lemma inner_dec (x y : inner) : {x = y} + {x <> y}.
Proof. decide equality; try (apply list_eq_dec; apply N.eq_dec). apply list_eq_dec; decide equality; [apply bool_dec|apply list_eq_dec, N.eq_dec]. Qed.

(* equal hash at a position: equal up to there, or a collision *)
Lemma chain_inj A B j a b : chained hmac A -> chained hmac B ->
  nth_error A j = Some a -> nth_error B j = Some b -> e_hash a = e_hash b ->
  firstn (S j) A = firstn (S j) B \/ clash A B.
Proof.
  intros HA HB; revert a b; induction j as [|j IH]; intros a b Ha Hb E.
  - destruct A as [|x A]; [discriminate|]. destruct B as [|y B]; [discriminate|].
    cbn in Ha, Hb; injection Ha as ->; injection Hb as ->.
    destruct (N.eq_dec (e_term a) (e_term b)) as [Et|Et]; [destruct (inner_dec (e_inner a) (e_inner b)) as [Ei|Ei]|].
    + left. clear HA HB. cbn. assert (a = b) as -> by (destruct a, b; cbn in *; congruence). reflexivity.
    + right. exists 0%nat, a, b; cbn; auto 10.
    + right. exists 0%nat, a, b; cbn; auto 10.
  - destruct (N.eq_dec (e_term a) (e_term b)) as [Et|Et]; [destruct (inner_dec (e_inner a) (e_inner b)) as [Ei|Ei]|];
      [|right; exists (S j), a, b; auto 10|right; exists (S j), a, b; auto 10].
    destruct (list_eq_dec N.eq_dec (prev_hash A (S j)) (prev_hash B (S j))) as [Ep|Ep];
      [|right; exists (S j), a, b; auto 10].
    assert (Hja : exists a', nth_error A j = Some a').
    { destruct (nth_error A j) eqn:En; [eauto|]. apply nth_error_None in En.
      assert (S j < length A)%nat by (apply nth_error_Some; congruence). lia. }
    assert (Hjb : exists b', nth_error B j = Some b').
    { destruct (nth_error B j) eqn:En; [eauto|]. apply nth_error_None in En.
      assert (S j < length B)%nat by (apply nth_error_Some; congruence). lia. }
    destruct Hja as [a' Ha'], Hjb as [b' Hb']. cbn [prev_hash] in Ep. rewrite Ha', Hb' in Ep.
    destruct (IH a' b' Ha' Hb' Ep) as [He|Hc]; [left|right; assumption].
    assert (Hs : forall (l : list entry) n x, nth_error l n = Some x -> firstn (S n) l = firstn n l ++ [x]).
    { clear. intros l n; revert l; induction n as [|n IH]; intros [|y l] x H; try discriminate.
      - cbn in *; congruence.
      - cbn [nth_error] in H. apply IH in H. cbn [firstn app] in *. f_equal. exact H. }
    rewrite (Hs A (S j) a Ha), (Hs B (S j) b Hb), He.
    assert (a = b) as -> by (destruct a, b; cbn in *; congruence). reflexivity.
Qed.

Lemma chain_inj_idx A B i a b : chained hmac A -> chained hmac B ->
  nth_entry A i = Some a -> nth_entry B i = Some b -> e_hash a = e_hash b ->
  upto i A = upto i B \/ clash A B.
Proof.
  intros HA HB Ha Hb E. unfold nth_entry in *. destruct (i =? 0) eqn:E0; [discriminate|].
  destruct (chain_inj A B _ a b HA HB Ha Hb E) as [H|H]; [left|auto].
  unfold upto. now replace (N.to_nat i) with (S (N.to_nat (i - 1))) by lia.
Qed.

End Chain.
