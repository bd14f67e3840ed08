(* What holds after a request that was answered with success, for any database. *)
From Verif Require Import RaftNetSpec CoreTxSpec GroupSpec Group RaftChain RaftSpec GroupProofs.

Section Done.
Context {D E : Type}.
Variable sz : sizes.
Variable hmac : bytes -> bytes -> bytes.
Variable apply : D -> bytes -> D * option E.
Variable respond : N -> E -> option bytes.
Variable min_voting : N.
Variables (Good P : D -> Prop) (harm : entry -> Prop).
Hypothesis Hgood : forall db e, Good db -> Good (fst (run_one apply db e)).
Hypothesis Hkeep : forall db e, Good db -> P db -> ~ harm e -> P (fst (run_one apply db e)).

Lemma run_all_good es : forall db, Good db -> Good (fst (run_all apply db es)).
Proof.
  induction es as [|e es IH]; intros db H; [exact H|]. cbn [run_all]. pose proof (Hgood db e H) as H1. destruct (run_one apply db e) as [db1 eff]. cbn [fst] in H1.
  specialize (IH db1 H1). destruct (run_all apply db1 es). exact IH.
Qed.
Lemma run_all_keep es : forall db, Good db -> P db -> (forall e, In e es -> ~ harm e) -> P (fst (run_all apply db es)).
Proof.
  induction es as [|e es IH]; intros db H Hp Hh; [exact Hp|]. cbn [run_all]. pose proof (Hgood db e H) as H1. pose proof (Hkeep db e H Hp (Hh e (or_introl eq_refl))) as H2.
  destruct (run_one apply db e) as [db1 eff]. cbn [fst] in H1, H2. specialize (IH db1 H1 H2 (fun x Hx => Hh x (or_intror Hx))). destruct (run_all apply db1 es). exact IH.
Qed.
Lemma firstn_split {A} (l : list A) p j e : nth_error l p = Some e -> (p < j)%nat -> firstn j l = firstn p l ++ e :: firstn (j - p - 1) (skipn (S p) l).
Proof.
  revert p j. induction l as [|x l IH]; intros p j H Hlt; [destruct p; discriminate|]. destruct j as [|j]; [lia|]. destruct p as [|p]; cbn in H |- *.
  - injection H as ->. now rewrite Nat.sub_0_r.
  - f_equal. apply IH; [assumption|lia].
Qed.
Lemma nth_skipn {A} (l : list A) p n : nth_error (skipn p l) n = nth_error l (p + n).
Proof. revert p. induction l as [|x l IH]; intros [|p]; cbn; auto. now destruct n. Qed.
Lemma in_firstn_skipn {A} (l : list A) p n x : In x (firstn n (skipn (S p) l)) -> exists r, nth_error l r = Some x /\ (p < r)%nat /\ (r < S p + n)%nat.
Proof.
  intros H. apply In_nth_error in H as [r H]. assert (Hr : (r < n)%nat).
  { assert (r < length (firstn n (skipn (S p) l)))%nat by (apply nth_error_Some; congruence). rewrite firstn_length in H0. lia. }
  exists (S p + r)%nat. split; [|lia]. rewrite <- nth_skipn. rewrite <- H. clear -Hr. revert r Hr. generalize (skipn (S p) l). intros l'.
  revert n. induction l' as [|y l' IH]; intros [|n] [|r] Hr; cbn; auto; try lia. apply IH. lia.
Qed.

Lemma done_after M sm L0 db0 evs (g : group D E) k q d a :
  group_reached sz hmac apply respond min_voting M sm L0 db0 evs g -> gchanges_overlap M sm evs -> gno_clash g -> psize (g_rolled D E g) <= sm ->
  Good db0 -> (forall db, Good db -> P (fst (apply db d))) ->
  ~ In k (g_rolled D E g) -> saw g k (Asked E q (IData d)) -> saw g k (Said E q a) -> success a ->
  exists i e0 eff0, saw g k (Took E i e0 eff0) /\ e_inner e0 = IData d /\
    (forall k' s A, gwas g k' s A -> i <= n_applied (c_node D s) ->
       (forall k2 j e eff, saw g k2 (Took E j e eff) -> i < j -> j <= n_applied (c_node D s) -> ~ harm e) -> Good (c_db D s) /\ P (c_db D s)) /\
    (forall k' j e eff, saw g k' (Took E j e eff) -> i < j ->
       (forall k2 j2 e2 eff2, saw g k2 (Took E j2 e2 eff2) -> i < j2 -> j2 < j -> ~ harm e2) ->
       exists db, Good db /\ P db /\ eff = snd (run_one apply db e)).
Proof.
  intros Hg Hf Hun Hr G0 Hset Hk Hask Hsaid Hs.
  destruct (reached_all sz hmac apply respond min_voting M sm L0 db0 evs g Hg Hf Hun) as (_ & _ & Fm & _ & HI).
  destruct (one_database sz hmac apply respond min_voting M sm L0 db0 evs g Hg Hf Hun Hr) as (rest & Htook & Hwas & _ & Hans & _).
  destruct (Hans k q a Hsaid Hs Hk) as (x & p & e0 & eff0 & H1 & H2 & H3 & H4 & _).
  destruct (q_uniq _ _ _ _ _ _ _ _ _ _ _ HI k q x q (IData d) Hk H1 Hask eq_refl) as [_ ->].
  exists (llen L0 + 1 + N.of_nat p), e0, eff0. split; [exact H2|]. split; [exact H4|].
  destruct H3 as [H3 _].
  assert (Hmid : forall j, (p < j)%nat -> (forall r e, nth_error rest r = Some e -> (p < r)%nat -> (r < j)%nat -> ~ harm e) ->
            Good (fst (run_all apply db0 (firstn j rest))) /\ P (fst (run_all apply db0 (firstn j rest)))).
  { intros j Hj Hh. split; [apply run_all_good; assumption|]. rewrite (firstn_split rest p j e0 H3 Hj). rewrite run_all_app. cbn [run_all].
    destruct (run_all apply db0 (firstn p rest)) as [m1 r1] eqn:E1. pose proof (run_all_good (firstn p rest) db0 G0) as Gm. rewrite E1 in Gm. cbn [fst] in Gm |- *.
    pose proof (Hgood m1 e0 Gm) as Ge. assert (He : P (fst (run_one apply m1 e0))) by (unfold run_one; rewrite H4; apply Hset; assumption).
    destruct (run_one apply m1 e0) as [m2 eff] eqn:E2. cbn [fst] in Ge, He.
    pose proof (run_all_keep (firstn (j - p - 1) (skipn (S p) rest)) m2 Ge He) as Hl.
    destruct (run_all apply m2 (firstn (j - p - 1) (skipn (S p) rest))) as [m3 r3] eqn:E3. cbn [fst] in *. apply Hl.
    intros e Hin. destruct (in_firstn_skipn _ _ _ _ Hin) as (r & X1 & X2 & X3). apply (Hh r e X1); lia. }
  split.
  - intros k' s A Hw Hi Hh. destruct (Hwas k' s A Hw) as (j & Hj1 & Hj2 & Hdb). rewrite Hdb. apply Hmid; [lia|].
    intros r e He Hp Hrj. destruct (q_all _ _ _ _ _ _ _ _ _ _ _ HI k' s A (llen L0 + 1 + N.of_nat r) Hw ltac:(lia) ltac:(lia)) as (e' & eff' & Ht).
    destruct (Htook _ _ _ _ Ht) as (r' & Er & [Hr' _]). assert (r' = r) as -> by lia. rewrite He in Hr'. injection Hr' as <-. apply (Hh k' _ e eff' Ht); lia.
  - intros k' j e eff Ht Hi Hh. destruct (Htook _ _ _ _ Ht) as (r & -> & [Hr1 Hr2]). exists (fst (run_all apply db0 (firstn r rest))).
    destruct (Hmid r ltac:(lia)) as [X1 X2].
    { intros r2 e2 He2 Hp2 Hr2'. 
      destruct (took_before sz hmac apply respond min_voting M sm L0 db0 evs g k' _ e eff (llen L0 + 1 + N.of_nat r2) Hg Hf Hun Ht ltac:(lia) ltac:(lia)) as (e' & eff' & Ht2).
      destruct (Htook _ _ _ _ Ht2) as (r' & Er & [Hr' _]). assert (r' = r2) as -> by lia. rewrite He2 in Hr'. injection Hr' as <-. apply (Hh k' _ e2 eff' Ht2); lia. }
    split; [exact X1|]. split; [exact X2|]. rewrite (run_all_nth apply rest db0 r e Hr1) in Hr2. injection Hr2 as <-. reflexivity.
Qed.
End Done.
