(* Proofs about the dispatcher. *)
From Verif Require Import HostDispatchSpec.

Lemma get_in id m j : get_recv id m = Some j -> In (id, j) m.
Proof.
  induction m as [|[i c] m IH]; cbn; [discriminate|]. destruct (N.eqb_spec i id) as [->|]; [intros X; injection X as ->; now left|auto].
Qed.
Lemma in_del id m x : In x (del_recv id m) <-> In x m /\ fst x <> id.
Proof. unfold del_recv. rewrite filter_In. destruct (N.eqb_spec (fst x) id); cbn; intuition congruence. Qed.
Lemma in_set id c m x : In x (set_recv id c m) <-> x = (id, c) \/ (In x m /\ fst x <> id).
Proof. unfold set_recv. cbn. rewrite in_del. intuition. Qed.
Lemma get_some id m j : In (id, j) m -> exists k, get_recv id m = Some k.
Proof.
  induction m as [|[i c] m IH]; cbn; [contradiction|]. destruct (N.eqb_spec i id); [eauto|]. intros [X|X]; [congruence|auto].
Qed.

(* where things come from *)
Definition made (h : list dop) (j : nat) (id : N) : Prop :=
  exists h0 h1, h = h0 ++ DCall true :: h1 /\ requested h0 j /\ id = id_after h0.
Definition submitted (h : list dop) (j : nat) (id : N) : Prop :=
  exists h0 h1 h2, h = h0 ++ DCall true :: h1 ++ DTake j :: h2 /\ requested h0 j /\ id = id_after h0 /\ none_of (responds_to id) h2.
Definition answered (h : list dop) (j : nat) (id : N) (b : bytes) : Prop :=
  exists h0 h1 h2 h3, h = h0 ++ DCall true :: h1 ++ DTake j :: h2 ++ DRespond id b :: h3 /\ requested h0 j /\ id = id_after h0 /\
    none_of (responds_to id) h2.
Lemma made_more h o j id : made h j id -> made (h ++ o) j id.
Proof. intros (h0 & h1 & -> & H). exists h0, (h1 ++ o). rewrite <- app_assoc. auto. Qed.
Lemma answered_more h o j id b : answered h j id b -> answered (h ++ o) j id b.
Proof. intros (h0 & h1 & h2 & h3 & -> & H). exists h0, h1, h2, (h3 ++ o). split; [|assumption]. repeat (rewrite <- app_assoc; cbn). reflexivity. Qed.
Lemma submitted_more h o j id : submitted h j id -> responds_to id o = false -> submitted (h ++ [o]) j id.
Proof.
  intros (h0 & h1 & h2 & -> & H1 & H2 & H3) Ho. exists h0, h1, (h2 ++ [o]). split; [repeat (rewrite <- app_assoc; cbn); reflexivity|]. do 2 (split; auto).
  apply none_of_app. split; [assumption|]. apply none_of_cons. split; [assumption|]. intros x [].
Qed.
Lemma submitted_answered h j id b : submitted h j id -> answered (h ++ [DRespond id b]) j id b.
Proof. intros (h0 & h1 & h2 & -> & H). exists h0, h1, h2, []. split; [repeat (rewrite <- app_assoc; cbn); reflexivity|assumption]. Qed.
Lemma made_unique h j j' id : made h j id -> made h j' id -> j = j'.
Proof.
  intros (h0 & h1 & -> & R1 & I1) (h0' & h1' & E & R2 & I2). unfold requested, id_after in *.
  assert (H : h0 = h0'); [|subst; lia].
  assert (K : forall p q, count is_request (p ++ DCall true :: q) = count is_request p + 1 + count is_request q).
  { intros p q. rewrite count_app, count_cons. cbn [is_request]. lia. }
  apply app_eq_app in E as (x & [[E1 E2]|[E1 E2]]); (destruct x as [|o x]; [rewrite app_nil_r in E1; congruence|]); exfalso;
    injection E2 as <- E2.
  - pose proof (K h0' x) as X. rewrite <- E1 in X. lia.
  - pose proof (K h0 x) as X. rewrite <- E1 in X. lia.
Qed.
Lemma submitted_made h j id : submitted h j id -> made h j id.
Proof. intros (h0 & h1 & h2 & -> & H1 & H2 & _). exists h0, (h1 ++ DTake j :: h2). auto. Qed.

Record inv (h : list dop) (d : disp) : Prop := {
  i_count : N.of_nat (d_count d) = count is_call h;
  i_next : d_next d = count is_request h;
  i_absent : forall j, (d_count d <= j)%nat -> d_calls d j = nobody;
  i_made : forall j id, c_id (d_calls d j) = Some id -> made h j id;
  i_recv : forall id j, In (id, j) (d_recv d) -> c_id (d_calls d j) = Some id /\ c_closed (d_calls d j) = false /\ c_buf (d_calls d j) = None /\
     (c_phase (d_calls d j) = PTaken \/ c_phase (d_calls d j) = PIdle) /\ (forall m, d_hand d <> Some (j, m)) /\ submitted h j id;
  i_hand : forall j id b, d_hand d = Some (j, (id, b)) -> c_id (d_calls d j) = Some id /\ c_closed (d_calls d j) = false /\ c_buf (d_calls d j) = None /\
     (c_phase (d_calls d j) = PTaken \/ c_phase (d_calls d j) = PIdle \/ c_phase (d_calls d j) = PFailed None) /\ answered h j id b;
  i_failed : forall i j, c_phase (d_calls d i) = PFailed (Some j) -> j = i /\ c_closed (d_calls d i) = false /\ c_buf (d_calls d i) = None;
  i_queued : forall j, c_phase (d_calls d j) = PQueued -> c_closed (d_calls d j) = false /\ c_buf (d_calls d j) = None;
  i_taken : forall j, c_phase (d_calls d j) = PTaken -> c_id (d_calls d j) = None -> c_closed (d_calls d j) = false;
  i_buf : forall j id b, c_buf (d_calls d j) = Some (id, b) -> c_id (d_calls d j) = Some id /\ c_closed (d_calls d j) = true /\ answered h j id b;
  i_done : forall j, c_done (d_calls d j) = true -> c_closed (d_calls d j) = true /\ c_buf (d_calls d j) = None }.

Lemma inv_start : inv [] no_calls.
Proof. constructor; cbn; try contradiction; try discriminate; auto. Qed.

(* an operation that adds nothing *)
Lemma inv_more h d o : inv h d -> is_call o = false -> (forall id j, In (id, j) (d_recv d) -> responds_to id o = false) -> inv (h ++ [o]) d.
Proof.
  intros [V1 V2 V3 V4 V5 V6 V7 V8 V9 V10 V11] Hc Hr.
  assert (Hq : is_request o = false) by (destruct o as [[]| | | | | |]; auto; discriminate).
  constructor; auto.
  - rewrite count_app, count_cons, Hc. cbn. lia.
  - rewrite count_app, count_cons, Hq. cbn. lia.
  - intros. apply made_more; auto.
  - intros id j H. destruct (V5 id j H) as (A1 & A2 & A3 & A4 & A5 & A6). repeat split; auto. apply submitted_more; eauto.
  - intros j id b H. destruct (V6 j id b H) as (A1 & A2 & A3 & A4 & A5). repeat split; auto. now apply answered_more.
  - intros j id b H. destruct (V10 j id b H) as (A1 & A2 & A3). do 2 (split; [assumption|]). now apply answered_more.
Qed.

Lemma inv_call h d q : inv h d -> count is_request h < 2 ^ 64 - 1 -> inv (h ++ [DCall q]) (start_call q d).
Proof.
  intros [V1 V2 V3 V4 V5 V6 V7 V8 V9 V10 V11] Hs. unfold start_call.
  assert (Hn : next_id (d_next d) = d_next d + 1).
  { unfold next_id. apply N.mod_small. rewrite V2. change (2 ^ 64) with 18446744073709551616 in *. lia. }
  assert (Old : forall k, (k =? d_count d)%nat = true -> d_calls d k = nobody) by (intros k Hk; apply Nat.eqb_eq in Hk; apply V3; lia).
  constructor; cbn [d_count d_next d_calls d_recv d_hand].
  - rewrite count_app, count_cons. cbn. lia.
  - rewrite count_app, count_cons. destruct q; cbn; rewrite ?Hn, V2; lia.
  - intros j Hj. unfold put_call. replace (j =? d_count d)%nat with false by (symmetry; apply Nat.eqb_neq; lia). apply V3. lia.
  - intros j id. unfold put_call. destruct (Nat.eqb_spec j (d_count d)) as [->|Hj]; [|intros H; apply made_more; auto].
    cbn. destruct q; [|discriminate]. intros X. injection X as <-. exists h, []. split; [reflexivity|]. unfold requested, id_after. rewrite Hn, V2. split; [lia|reflexivity].
  - intros id j H. destruct (V5 id j H) as (A1 & A2 & A3 & A4 & A5 & A6). unfold put_call.
    destruct (j =? d_count d)%nat eqn:E; [rewrite (Old j E) in A1; discriminate|]. repeat split; auto. apply submitted_more; auto.
  - intros j id b H. destruct (V6 j id b H) as (A1 & A2 & A3 & A4 & A5). unfold put_call.
    destruct (j =? d_count d)%nat eqn:E; [rewrite (Old j E) in A1; discriminate|]. repeat split; auto. now apply answered_more.
  - intros i j. unfold put_call. destruct (i =? d_count d)%nat; [discriminate|apply V7].
  - intros j. unfold put_call. destruct (j =? d_count d)%nat; [auto|apply V8].
  - intros j. unfold put_call. destruct (j =? d_count d)%nat; [discriminate|apply V9].
  - intros j id b. unfold put_call. destruct (j =? d_count d)%nat; [discriminate|]. intros H. destruct (V10 j id b H) as (A1 & A2 & A3). do 2 (split; [assumption|]). now apply answered_more.
  - intros j. unfold put_call. destruct (j =? d_count d)%nat; [discriminate|apply V11].
Qed.

Lemma inv_take h d j : inv h d -> inv (h ++ [DTake j]) (take_call j d).
Proof.
  intros V. unfold take_call. destruct (c_phase (d_calls d j)) eqn:Ep; try (apply inv_more; auto; fail).
  assert (Vm : inv (h ++ [DTake j]) d) by (apply inv_more; auto).
  pose proof V as [_ _ _ U4 U5 U6 _ U8 _ _ _]. destruct Vm as [V1 V2 V3 V4 V5 V6 V7 V8 V9 V10 V11].
  destruct (U8 j Ep) as [Hop Hbf].
  assert (Hc : (j < d_count d)%nat) by (destruct (Nat.lt_ge_cases j (d_count d)) as [|X]; [assumption|]; rewrite (V3 j X) in Ep; discriminate).
  assert (Hh : forall m, d_hand d <> Some (j, m)).
  { intros [id b] X. destruct (V6 j id b X) as (_ & _ & _ & A & _). rewrite Ep in A. destruct A as [|[|]]; discriminate. }
  constructor; cbn [d_count d_next d_calls d_recv d_hand]; auto.
  - intros k Hk. unfold put_call. replace (k =? j)%nat with false by (symmetry; apply Nat.eqb_neq; lia). auto.
  - intros k id. unfold put_call. destruct (Nat.eqb_spec k j) as [->|]; cbn; auto.
  - intros id k H.
    assert (Hold : In (id, k) (d_recv d) -> k <> j) by (intros X ->; destruct (V5 id j X) as (_ & _ & _ & [A|A] & _); congruence).
    unfold put_call. destruct (Nat.eqb_spec k j) as [->|Hk].
    + destruct (c_id (d_calls d j)) as [i|] eqn:Ei; [|exfalso; apply (Hold H eq_refl)].
      apply in_set in H as [H|[H _]]; [|exfalso; apply (Hold H eq_refl)]. injection H as ->. cbn. rewrite Ei, Hop, Hbf. repeat split; auto.
      destruct (U4 j i Ei) as (h0 & h1 & -> & Hr & Hid). exists h0, h1, []. split; [rewrite <- app_assoc; reflexivity|]. do 2 (split; auto). intros x [].
    + assert (H' : In (id, k) (d_recv d)) by (destruct (c_id (d_calls d j)) as [i|]; [apply in_set in H as [H|[H _]]; [injection H as _ ->; congruence|exact H]|exact H]).
      apply V5. exact H'.
  - intros k id b H. unfold put_call. destruct (Nat.eqb_spec k j) as [->|Hk]; [exfalso; apply (Hh (id, b) H)|apply V6; exact H].
  - intros i k. unfold put_call. destruct (Nat.eqb_spec i j) as [->|Hk]; [discriminate|apply V7].
  - intros k. unfold put_call. destruct (Nat.eqb_spec k j) as [->|Hk]; [discriminate|apply V8].
  - intros k. unfold put_call. destruct (Nat.eqb_spec k j) as [->|Hk]; [cbn; auto|apply V9].
  - intros k id b. unfold put_call. destruct (Nat.eqb_spec k j) as [->|Hk]; [cbn; apply V10|apply V10].
  - intros k. unfold put_call. destruct (Nat.eqb_spec k j) as [->|Hk]; [cbn; apply V11|apply V11].
Qed.

Lemma inv_sent h d j ok : inv h d -> exists d', sent j ok d = Ret d' /\ inv (h ++ [DSent j ok]) d'.
Proof.
  intros V. unfold sent. assert (Vm : inv (h ++ [DSent j ok]) d) by (apply inv_more; auto).
  destruct (c_phase (d_calls d j)) eqn:Ep; try (eexists; split; [reflexivity|assumption]; fail).
  pose proof Vm as [V1 V2 V3 V4 V5 V6 V7 V8 V9 V10 V11].
  assert (Hc : (j < d_count d)%nat) by (destruct (Nat.lt_ge_cases j (d_count d)) as [|X]; [assumption|]; rewrite (V3 j X) in Ep; discriminate).
  destruct (c_id (d_calls d j)) as [id|] eqn:Ei.
  - destruct ok.
    + (* the worker is done *)
      eexists. split; [reflexivity|].
      constructor; cbn [d_count d_next d_calls d_recv d_hand]; auto; unfold put_call.
      * intros k Hk. replace (k =? j)%nat with false by (symmetry; apply Nat.eqb_neq; lia). auto.
      * intros k i. destruct (Nat.eqb_spec k j) as [->|]; cbn; auto.
      * intros i k H. destruct (V5 i k H) as (A1 & A2 & A3 & A4 & A5 & A6). destruct (Nat.eqb_spec k j) as [->|]; cbn; repeat split; auto.
      * intros k i b H. destruct (V6 k i b H) as (A1 & A2 & A3 & A4 & A5). destruct (Nat.eqb_spec k j) as [->|]; cbn; repeat split; auto.
      * intros i k. destruct (Nat.eqb_spec i j) as [->|]; [discriminate|apply V7].
      * intros k. destruct (Nat.eqb_spec k j) as [->|]; [discriminate|apply V8].
      * intros k. destruct (Nat.eqb_spec k j) as [->|]; [discriminate|apply V9].
      * intros k i b. destruct (Nat.eqb_spec k j) as [->|]; cbn; apply V10.
      * intros k. destruct (Nat.eqb_spec k j) as [->|]; cbn; apply V11.
    + (* an error: the receiver is removed *)
      eexists. split; [reflexivity|].
      assert (Hg : forall k, get_recv id (d_recv d) = Some k -> k = j).
      { intros k Hk. apply get_in in Hk. destruct (V5 id k Hk) as (A1 & _). eapply made_unique; [exact (V4 k id A1)|exact (V4 j id Ei)]. }
      constructor; cbn [d_count d_next d_calls d_recv d_hand]; auto; unfold put_call.
      * intros k Hk. replace (k =? j)%nat with false by (symmetry; apply Nat.eqb_neq; lia). auto.
      * intros k i. destruct (Nat.eqb_spec k j) as [->|]; cbn; auto.
      * intros i k H. apply in_del in H as [H Hne]. destruct (V5 i k H) as (A1 & A2 & A3 & A4 & A5 & A6). destruct (Nat.eqb_spec k j) as [->|]; [|repeat split; auto].
        exfalso. apply Hne. cbn. congruence.
      * intros k i b H. destruct (V6 k i b H) as (A1 & A2 & A3 & A4 & A5). destruct (Nat.eqb_spec k j) as [->|]; [|repeat split; auto].
        cbn. repeat split; auto. right. right. f_equal. destruct (get_recv id (d_recv d)) as [k|] eqn:Eg; [exfalso|reflexivity].
        pose proof (Hg k eq_refl). subst k. apply get_in in Eg. destruct (V5 id j Eg) as (_ & _ & _ & _ & A & _). apply (A (i, b) H).
      * intros i k. destruct (Nat.eqb_spec i j) as [->|]; [|apply V7]. cbn. intros X. injection X as X. pose proof (Hg k X). subst k.
        apply get_in in X. destruct (V5 id j X) as (_ & A2 & A3 & _). auto.
      * intros k. destruct (Nat.eqb_spec k j) as [->|]; [discriminate|apply V8].
      * intros k. destruct (Nat.eqb_spec k j) as [->|]; [discriminate|apply V9].
      * intros k i b. destruct (Nat.eqb_spec k j) as [->|]; cbn; apply V10.
      * intros k. destruct (Nat.eqb_spec k j) as [->|]; cbn; apply V11.
  - (* no reply expected: the channel is closed *)
    pose proof (V9 j Ep Ei) as Hop. unfold close_chan. unfold put_call at 1. rewrite Nat.eqb_refl. cbn [with_phase c_closed]. rewrite Hop.
    eexists. split; [reflexivity|].
    assert (G : forall k, put_call j (Call (c_id (put_call j (with_phase PIdle (d_calls d j)) (d_calls d) j)) (c_phase (put_call j (with_phase PIdle (d_calls d j)) (d_calls d) j))
        (c_buf (put_call j (with_phase PIdle (d_calls d j)) (d_calls d) j)) true (c_done (put_call j (with_phase PIdle (d_calls d j)) (d_calls d) j)))
        (put_call j (with_phase PIdle (d_calls d j)) (d_calls d)) k = if (k =? j)%nat then Call None PIdle (c_buf (d_calls d j)) true (c_done (d_calls d j)) else d_calls d k).
    { intros k. unfold put_call. rewrite Nat.eqb_refl. cbn. rewrite Ei. destruct (k =? j)%nat; reflexivity. }
    constructor; cbn [d_count d_next d_calls d_recv d_hand]; auto; intros *; rewrite ?G.
    + intros Hk. match goal with |- context [(?k =? j)%nat] => replace (k =? j)%nat with false by (symmetry; apply Nat.eqb_neq; lia) end. auto.
    + destruct (Nat.eqb_spec j0 j) as [->|]; [discriminate|auto].
    + intros H. destruct (V5 id j0 H) as (A1 & A2 & A3 & A4 & A5 & A6). destruct (Nat.eqb_spec j0 j) as [->|]; [congruence|repeat split; auto].
    + intros H. destruct (V6 j0 id b H) as (A1 & A2 & A3 & A4 & A5). destruct (Nat.eqb_spec j0 j) as [->|]; [congruence|repeat split; auto].
    + destruct (Nat.eqb_spec i j) as [->|]; [discriminate|apply V7].
    + destruct (Nat.eqb_spec j0 j) as [->|]; [discriminate|apply V8].
    + destruct (Nat.eqb_spec j0 j) as [->|]; [discriminate|apply V9].
    + destruct (Nat.eqb_spec j0 j) as [->|]; [|apply V10]. cbn. intros H. apply V10 in H as [A _]. congruence.
    + destruct (Nat.eqb_spec j0 j) as [->|]; [|apply V11]. cbn. intros H. apply V11 in H as [_ A]. auto.
Qed.
Lemma inv_fail h d j : inv h d -> exists d', fail_call j d = Ret d' /\ inv (h ++ [DFail j]) d'.
Proof.
  intros V. unfold fail_call. assert (Vm : inv (h ++ [DFail j]) d) by (apply inv_more; auto).
  destruct (c_phase (d_calls d j)) as [| | |k|] eqn:Ep; try (eexists; split; [reflexivity|assumption]; fail).
  pose proof Vm as [V1 V2 V3 V4 V5 V6 V7 V8 V9 V10 V11].
  assert (Hc : (j < d_count d)%nat) by (destruct (Nat.lt_ge_cases j (d_count d)) as [|X]; [assumption|]; rewrite (V3 j X) in Ep; discriminate).
  assert (Hnr : forall id, ~ In (id, j) (d_recv d)) by (intros id X; destruct (V5 id j X) as (_ & _ & _ & [A|A] & _); congruence).
  destruct k as [i|].
  - destruct (V7 j i Ep) as (-> & Hop & Hbf).
    assert (Hnh : forall m, d_hand d <> Some (j, m)) by (intros [id b] X; destruct (V6 j id b X) as (_ & _ & _ & [A|[A|A]] & _); congruence).
    unfold close_chan. unfold put_call at 1. rewrite Nat.eqb_refl. cbn [with_phase c_closed]. rewrite Hop.
    eexists. split; [reflexivity|].
    assert (G : forall k, put_call j (Call (c_id (put_call j (with_phase PIdle (d_calls d j)) (d_calls d) j)) (c_phase (put_call j (with_phase PIdle (d_calls d j)) (d_calls d) j))
        (c_buf (put_call j (with_phase PIdle (d_calls d j)) (d_calls d) j)) true (c_done (put_call j (with_phase PIdle (d_calls d j)) (d_calls d) j)))
        (put_call j (with_phase PIdle (d_calls d j)) (d_calls d)) k = if (k =? j)%nat then Call (c_id (d_calls d j)) PIdle None true (c_done (d_calls d j)) else d_calls d k).
    { intros k. unfold put_call. rewrite Nat.eqb_refl. cbn. rewrite Hbf. destruct (k =? j)%nat; reflexivity. }
    constructor; cbn [d_count d_next d_calls d_recv d_hand]; auto; intros *; rewrite ?G.
    + intros Hk. match goal with |- context [(?k =? j)%nat] => replace (k =? j)%nat with false by (symmetry; apply Nat.eqb_neq; lia) end. auto.
    + destruct (Nat.eqb_spec j0 j) as [->|]; cbn; auto.
    + intros H. destruct (V5 id j0 H) as (A1 & A2 & A3 & A4 & A5 & A6). destruct (Nat.eqb_spec j0 j) as [->|]; [exfalso; eapply Hnr; eauto|repeat split; auto].
    + intros H. destruct (V6 j0 id b H) as (A1 & A2 & A3 & A4 & A5). destruct (Nat.eqb_spec j0 j) as [->|]; [exfalso; eapply Hnh; eauto|repeat split; auto].
    + destruct (Nat.eqb_spec i j) as [->|]; [discriminate|apply V7].
    + destruct (Nat.eqb_spec j0 j) as [->|]; [discriminate|apply V8].
    + destruct (Nat.eqb_spec j0 j) as [->|]; [discriminate|apply V9].
    + destruct (Nat.eqb_spec j0 j) as [->|]; [discriminate|apply V10].
    + destruct (Nat.eqb_spec j0 j) as [->|]; [cbn; auto|apply V11].
  - eexists. split; [reflexivity|].
    constructor; cbn [d_count d_next d_calls d_recv d_hand]; auto; unfold put_call.
    + intros k Hk. replace (k =? j)%nat with false by (symmetry; apply Nat.eqb_neq; lia). auto.
    + intros k i. destruct (Nat.eqb_spec k j) as [->|]; cbn; auto.
    + intros i k H. destruct (V5 i k H) as (A1 & A2 & A3 & A4 & A5 & A6). destruct (Nat.eqb_spec k j) as [->|]; cbn; repeat split; auto.
    + intros k i b H. destruct (V6 k i b H) as (A1 & A2 & A3 & A4 & A5). destruct (Nat.eqb_spec k j) as [->|]; cbn; repeat split; auto.
    + intros i k. destruct (Nat.eqb_spec i j) as [->|]; [discriminate|apply V7].
    + intros k. destruct (Nat.eqb_spec k j) as [->|]; [discriminate|apply V8].
    + intros k. destruct (Nat.eqb_spec k j) as [->|]; [discriminate|apply V9].
    + intros k i b. destruct (Nat.eqb_spec k j) as [->|]; cbn; apply V10.
    + intros k. destruct (Nat.eqb_spec k j) as [->|]; cbn; apply V11.
Qed.
(* handing over: always possible, the hand is then free *)
Lemma inv_hand0 h d : inv h d -> exists d', hand_over d = Ret d' /\ inv h d' /\ d_hand d' = None /\ d_recv d' = d_recv d /\
  (forall j m, d_hand d = Some (j, m) -> c_buf (d_calls d' j) = Some m) /\ (forall j, c_done (d_calls d' j) = c_done (d_calls d j)) /\
  (forall j, (forall m, d_hand d <> Some (j, m)) -> d_calls d' j = d_calls d j).
Proof.
  intros V. unfold hand_over. destruct (d_hand d) as [[j [id b]]|] eqn:Eh; [|exists d; repeat (split; auto); intros m X; discriminate].
  pose proof V as [V1 V2 V3 V4 V5 V6 V7 V8 V9 V10 V11]. destruct (V6 j id b Eh) as (Ei & Hop & Hbf & Hph & Hans). rewrite Hop, Hbf.
  assert (Hc : (j < d_count d)%nat) by (destruct (Nat.lt_ge_cases j (d_count d)) as [|X]; [assumption|]; rewrite (V3 j X) in Ei; discriminate).
  assert (Hnr : forall id, ~ In (id, j) (d_recv d)) by (intros i X; destruct (V5 i j X) as (_ & _ & _ & _ & A & _); eapply A; eauto).
  unfold close_chan. unfold put_call at 1. rewrite Nat.eqb_refl. cbn [c_closed].
  eexists. split; [reflexivity|]. cbn [d_hand d_recv d_calls].
  assert (G : forall k, put_call j (Call (c_id (put_call j (Call (c_id (d_calls d j)) (c_phase (d_calls d j)) (Some (id, b)) false (c_done (d_calls d j))) (d_calls d) j))
       (c_phase (put_call j (Call (c_id (d_calls d j)) (c_phase (d_calls d j)) (Some (id, b)) false (c_done (d_calls d j))) (d_calls d) j))
       (c_buf (put_call j (Call (c_id (d_calls d j)) (c_phase (d_calls d j)) (Some (id, b)) false (c_done (d_calls d j))) (d_calls d) j)) true
       (c_done (put_call j (Call (c_id (d_calls d j)) (c_phase (d_calls d j)) (Some (id, b)) false (c_done (d_calls d j))) (d_calls d) j)))
       (put_call j (Call (c_id (d_calls d j)) (c_phase (d_calls d j)) (Some (id, b)) false (c_done (d_calls d j))) (d_calls d)) k
     = if (k =? j)%nat then Call (c_id (d_calls d j)) (c_phase (d_calls d j)) (Some (id, b)) true (c_done (d_calls d j)) else d_calls d k).
  { intros k. unfold put_call. rewrite Nat.eqb_refl. cbn. destruct (k =? j)%nat; reflexivity. }
  split.
  - constructor; cbn [d_count d_next d_calls d_recv d_hand]; auto; intros *; rewrite ?G.
    + intros Hk. match goal with |- context [(?k =? j)%nat] => replace (k =? j)%nat with false by (symmetry; apply Nat.eqb_neq; lia) end. auto.
    + destruct (Nat.eqb_spec j0 j) as [->|]; cbn; auto.
    + intros H. destruct (V5 id0 j0 H) as (A1 & A2 & A3 & A4 & A5 & A6). destruct (Nat.eqb_spec j0 j) as [->|]; [exfalso; eapply Hnr; eauto|repeat (split; auto); intros m X; discriminate].
    + discriminate.
    + destruct (Nat.eqb_spec i j) as [->|]; [|apply V7]. cbn. intros X. destruct Hph as [A|[A|A]]; congruence.
    + destruct (Nat.eqb_spec j0 j) as [->|]; [|apply V8]. cbn. intros X. destruct Hph as [A|[A|A]]; congruence.
    + destruct (Nat.eqb_spec j0 j) as [->|]; [|apply V9]. cbn. congruence.
    + destruct (Nat.eqb_spec j0 j) as [->|]; [|apply V10]. cbn. intros X. injection X as <- <-. auto.
    + destruct (Nat.eqb_spec j0 j) as [->|]; [|apply V11]. cbn. intros X. apply V11 in X as [X _]. congruence.
  - do 2 (split; [reflexivity|]). split; [|split].
    + intros k m X. injection X as <- <-. rewrite G, Nat.eqb_refl. reflexivity.
    + intros k. rewrite G. destruct (Nat.eqb_spec k j) as [->|]; reflexivity.
    + intros k Hk. rewrite G. destruct (Nat.eqb_spec k j) as [->|]; [exfalso; eapply Hk; eauto|reflexivity].
Qed.
Lemma inv_hand h d : inv h d -> exists d', hand_over d = Ret d' /\ inv (h ++ [DHand]) d'.
Proof. intros V. destruct (inv_hand0 h d V) as (d' & E & V' & _). exists d'. split; [assumption|]. apply inv_more; auto. Qed.
Lemma inv_respond h d id b : inv h d -> exists d', respond id b d = Ret d' /\ inv (h ++ [DRespond id b]) d'.
Proof.
  intros V. unfold respond. destruct (inv_hand0 h d V) as (d1 & E & V1 & Hh & Hr & _). rewrite E, Hh.
  destruct (get_recv id (d_recv d1)) as [j|] eqn:Eg.
  - eexists. split; [reflexivity|]. apply get_in in Eg. destruct V1 as [W1 W2 W3 W4 W5 W6 W7 W8 W9 W10 W11]. destruct (W5 id j Eg) as (A1 & A2 & A3 & A4 & A5 & A6).
    constructor; cbn [d_count d_next d_calls d_recv d_hand]; auto.
    + rewrite count_app, count_cons. cbn. lia.
    + rewrite count_app, count_cons. cbn. lia.
    + intros. apply made_more; auto.
    + intros i k H. apply in_del in H as [H Hne]. cbn in Hne. destruct (W5 i k H) as (B1 & B2 & B3 & B4 & B5 & B6). repeat split; auto.
      * intros m X. injection X as <- <-. congruence.
      * apply submitted_more; auto. cbn. now apply N.eqb_neq, not_eq_sym.
    + intros k i c X. injection X as <- <- <-. repeat split; auto; [tauto|]. now apply submitted_answered.
    + intros k i c X. destruct (W10 k i c X) as (B1 & B2 & B3). do 2 (split; [assumption|]). now apply answered_more.
  - eexists. split; [reflexivity|]. apply inv_more; auto. intros i k X. cbn. apply N.eqb_neq. intros ->. apply get_some in X as [c X]. congruence.
Qed.
Lemma inv_receive h d j : inv h d -> inv (h ++ [DReceive j]) (fst (receive j d)).
Proof.
  intros V. unfold receive. assert (Vm : inv (h ++ [DReceive j]) d) by (apply inv_more; auto).
  destruct (c_done (d_calls d j)) eqn:Ed; [assumption|].
  assert (G : c_closed (d_calls d j) = true -> inv (h ++ [DReceive j]) (Disp (d_next d) (d_count d)
    (put_call j (Call (c_id (d_calls d j)) (c_phase (d_calls d j)) None (c_closed (d_calls d j)) true) (d_calls d)) (d_recv d) (d_hand d))).
  { intros Hcl. destruct Vm as [V1 V2 V3 V4 V5 V6 V7 V8 V9 V10 V11].
    assert (Hc : (j < d_count d)%nat) by (destruct (Nat.lt_ge_cases j (d_count d)) as [|X]; [assumption|]; rewrite (V3 j X) in Hcl; discriminate).
    constructor; cbn [d_count d_next d_calls d_recv d_hand]; auto; unfold put_call.
    - intros k Hk. replace (k =? j)%nat with false by (symmetry; apply Nat.eqb_neq; lia). auto.
    - intros k i. destruct (Nat.eqb_spec k j) as [->|]; cbn; auto.
    - intros i k H. destruct (V5 i k H) as (A1 & A2 & A3 & A4 & A5 & A6). destruct (Nat.eqb_spec k j) as [->|]; [congruence|repeat split; auto].
    - intros k i b H. destruct (V6 k i b H) as (A1 & A2 & A3 & A4 & A5). destruct (Nat.eqb_spec k j) as [->|]; [congruence|repeat split; auto].
    - intros i k. destruct (Nat.eqb_spec i j) as [->|]; [|apply V7]. cbn. intros X. apply V7 in X as (X & Y & Z). auto.
    - intros k. destruct (Nat.eqb_spec k j) as [->|]; [|apply V8]. cbn. intros X. apply V8 in X as (X & Y). auto.
    - intros k. destruct (Nat.eqb_spec k j) as [->|]; [|apply V9]. cbn. apply V9.
    - intros k i b. destruct (Nat.eqb_spec k j) as [->|]; [discriminate|apply V10].
    - intros k. destruct (Nat.eqb_spec k j) as [->|]; [cbn; auto|apply V11]. }
  destruct (c_buf (d_calls d j)) as [[id b]|] eqn:Eb; [apply G; apply (i_buf _ _ V _ _ _ Eb)|].
  destruct (c_closed (d_calls d j)) eqn:Ecl; [apply G; reflexivity|assumption].
Qed.

Lemma inv_step h d o : inv h d -> count is_request h < 2 ^ 64 - 1 -> exists d' r, dstep d o = Ret (d', r) /\ inv (h ++ [o]) d'.
Proof.
  intros V Hs. destruct o as [q|j|j ok|j|id b| |j]; cbn [dstep].
  - eexists _, _. split; [reflexivity|]. now apply inv_call.
  - eexists _, _. split; [reflexivity|]. now apply inv_take.
  - destruct (inv_sent h d j ok V) as (d' & -> & V'). cbn. eauto.
  - destruct (inv_fail h d j V) as (d' & -> & V'). cbn. eauto.
  - destruct (inv_respond h d id b V) as (d' & -> & V'). cbn. eauto.
  - destruct (inv_hand h d V) as (d' & -> & V'). cbn. eauto.
  - pose proof (inv_receive h d j V) as V'. destruct (receive j d) as [d' r]. cbn in V'. eauto.
Qed.
Lemma count_le {A} (f : A -> bool) l : count f l <= N.of_nat (length l).
Proof. induction l as [|x l IH]; [cbn; lia|]. rewrite count_cons. cbn [length]. destruct (f x); lia. Qed.
Lemma short_app a b : short (a ++ b) -> short a.
Proof. unfold short. rewrite app_length. lia. Qed.
Lemma inv_run h : short h -> exists d rs, exec dstep no_calls h = Ret (d, rs) /\ inv h d.
Proof.
  induction h as [|o h IH] using rev_ind; intros Hs; [exists no_calls, []; split; [reflexivity|apply inv_start]|].
  destruct (IH (short_app _ _ Hs)) as (d & rs & E & V).
  destruct (inv_step h d o V) as (d' & r & E' & V').
  { unfold short in Hs. rewrite app_length in Hs. pose proof (count_le is_request h). cbn in Hs. lia. }
  rewrite exec_app, E. cbn. rewrite E'. eauto.
Qed.

(* what a caller gets *)
Lemma receive_result j d d' k m : receive j d = (d', Some (k, m)) -> k = j /\ m = c_buf (d_calls d j) /\ c_done (d_calls d j) = false /\ c_done (d_calls d' j) = true.
Proof.
  unfold receive. destruct (c_done (d_calls d j)); [discriminate|]. destruct (c_buf (d_calls d j)) as [x|].
  - intros X. injection X as <- <- <-. cbn. unfold put_call. rewrite Nat.eqb_refl. auto.
  - destruct (c_closed (d_calls d j)); [|discriminate]. intros X. injection X as <- <- <-. cbn. unfold put_call. rewrite Nat.eqb_refl. auto.
Qed.
Lemma step_result d o d' k m : dstep d o = Ret (d', Some (k, m)) -> o = DReceive k /\ m = c_buf (d_calls d k) /\ c_done (d_calls d k) = false /\ c_done (d_calls d' k) = true.
Proof.
  destruct o as [q|j|j ok|j|id b| |j]; cbn [dstep]; try discriminate.
  - destruct (sent j ok d); discriminate.
  - destruct (fail_call j d); discriminate.
  - destruct (respond id b d); discriminate.
  - destruct (hand_over d); discriminate.
  - intros X. injection X as X. apply receive_result in X as (-> & X). auto.
Qed.
(* a call that has returned has returned *)
Lemma close_done j f f' k : close_chan j f = Ret f' -> c_done (f' k) = c_done (f k).
Proof.
  unfold close_chan. destruct (c_closed (f j)); [discriminate|]. intros X. injection X as <-. unfold put_call. destruct (Nat.eqb_spec k j) as [->|]; reflexivity.
Qed.
Lemma step_done h d o d' r j : inv h d -> dstep d o = Ret (d', r) -> c_done (d_calls d j) = true -> c_done (d_calls d' j) = true.
Proof.
  intros V E Hd. destruct o as [q|k|k ok|k|id b| |k]; cbn [dstep] in E.
  - injection E as <- _. cbn. unfold put_call. destruct (Nat.eqb_spec j (d_count d)) as [->|]; [|assumption].
    rewrite (i_absent _ _ V) in Hd by lia. discriminate.
  - injection E as <- _. unfold take_call. destruct (c_phase (d_calls d k)); auto. cbn. unfold put_call. destruct (Nat.eqb_spec j k) as [->|]; assumption.
  - destruct (sent k ok d) as [d1|] eqn:Es; [|discriminate]. injection E as <- _. unfold sent in Es. destruct (c_phase (d_calls d k)); try (injection Es as <-; assumption).
    destruct (c_id (d_calls d k)); [destruct ok; injection Es as <-; cbn; unfold put_call; destruct (Nat.eqb_spec j k) as [->|]; assumption|].
    destruct (close_chan _ _) as [f|] eqn:Ec; [|discriminate]. injection Es as <-. cbn. rewrite (close_done _ _ _ _ Ec). unfold put_call. destruct (Nat.eqb_spec j k) as [->|]; assumption.
  - destruct (fail_call k d) as [d1|] eqn:Es; [|discriminate]. injection E as <- _. unfold fail_call in Es. destruct (c_phase (d_calls d k)) as [| | |[i|]|]; try (injection Es as <-; assumption).
    + destruct (close_chan _ _) as [f|] eqn:Ec; [|discriminate]. injection Es as <-. cbn. rewrite (close_done _ _ _ _ Ec). unfold put_call. destruct (Nat.eqb_spec j k) as [->|]; assumption.
    + injection Es as <-. cbn. unfold put_call. destruct (Nat.eqb_spec j k) as [->|]; assumption.
  - destruct (inv_hand0 h d V) as (d1 & Eh & _ & Hn & _ & _ & Hk & _). unfold respond in E. rewrite Eh, Hn in E.
    destruct (get_recv id (d_recv d1)); injection E as <- _; cbn; rewrite Hk; assumption.
  - destruct (inv_hand0 h d V) as (d1 & Eh & _ & Hn & _ & _ & Hk & _). rewrite Eh in E. injection E as <- _. now rewrite Hk.
  - injection E as E. unfold receive in E. destruct (c_done (d_calls d k)) eqn:Ek; [injection E as <- _; assumption|].
    destruct (c_buf (d_calls d k)); [|destruct (c_closed (d_calls d k))]; injection E as <- _; cbn; try assumption; unfold put_call; destruct (Nat.eqb_spec j k); auto.
Qed.

Lemma run_answers h d rs j : short h -> exec dstep no_calls h = Ret (d, rs) ->
  (length (answers j rs) <= 1)%nat /\ (c_done (d_calls d j) = false -> answers j rs = []).
Proof.
  revert d rs. induction h as [|o h IH] using rev_ind; intros d rs Hs E; [injection E as <- <-; cbn; auto|].
  destruct (inv_run h (short_app _ _ Hs)) as (d0 & rs0 & E0 & V). rewrite exec_app, E0 in E. cbn in E.
  destruct (dstep d0 o) as [[d1 r]|] eqn:Es; [|discriminate]. injection E as <- <-.
  destruct (IH _ _ (short_app _ _ Hs) E0) as [A B].
  assert (Ea : answers j (rs0 ++ [r]) = answers j rs0 ++ answers j [r]) by apply flat_map_app. rewrite Ea, app_length.
  assert (K : c_done (d_calls d1 j) = false -> answers j rs0 = []).
  { intros Hd. apply B. destruct (c_done (d_calls d0 j)) eqn:X; auto. eapply step_done in X; eauto; congruence. }
  destruct r as [[k m]|]; cbn [answers flat_map app length]; [|split; [lia|]; intros Hd; rewrite app_nil_r; auto].
  destruct (step_result _ _ _ _ _ Es) as (-> & -> & C & D).
  destruct (Nat.eqb_spec k j) as [->|]; cbn [app length].
  - rewrite (B C). cbn. split; [lia|]. congruence.
  - split; [lia|]. intros Hd. rewrite app_nil_r. auto.
Qed.
Lemma run_own h d rs j id b : short h -> exec dstep no_calls h = Ret (d, rs) -> In (Some (j, Some (id, b))) rs -> answered h j id b.
Proof.
  revert d rs. induction h as [|o h IH] using rev_ind; intros d rs Hs E; [injection E as <- <-; contradiction|].
  destruct (inv_run h (short_app _ _ Hs)) as (d0 & rs0 & E0 & V). rewrite exec_app, E0 in E. cbn in E.
  destruct (dstep d0 o) as [[d1 r]|] eqn:Es; [|discriminate]. injection E as <- <-. intros Hin. apply in_app_or in Hin as [Hin|Hin].
  - apply answered_more. eapply IH; eauto. eapply short_app; eauto.
  - destruct Hin as [->|[]]. destruct (step_result _ _ _ _ _ Es) as (_ & X & _). apply answered_more. apply (i_buf _ _ V). auto.
Qed.

(* a request that was taken stays registered until it is answered or fails *)
Definition queued (j : nat) (id : N) (d : disp) := c_phase (d_calls d j) = PQueued /\ c_id (d_calls d j) = Some id.
Lemma close_queued j f f' k : close_chan j f = Ret f' -> c_phase (f' k) = c_phase (f k) /\ c_id (f' k) = c_id (f k).
Proof.
  unfold close_chan. destruct (c_closed (f j)); [discriminate|]. intros X. injection X as <-. unfold put_call. destruct (Nat.eqb_spec k j) as [->|]; auto.
Qed.
Lemma step_queued h d o d' r j id : inv h d -> dstep d o = Ret (d', r) -> takes j o = false -> queued j id d -> queued j id d'.
Proof.
  intros V E Ht [Hp Hi]. unfold queued. destruct o as [q|k|k ok|k|i b| |k]; cbn [dstep takes] in *.
  - injection E as <- _. cbn. unfold put_call. destruct (Nat.eqb_spec j (d_count d)) as [->|]; [|auto].
    rewrite (i_absent _ _ V) in Hi by lia. discriminate.
  - injection E as <- _. unfold take_call. destruct (c_phase (d_calls d k)); auto. cbn. unfold put_call. rewrite Nat.eqb_sym, Ht. auto.
  - destruct (sent k ok d) as [d1|] eqn:Es; [|discriminate]. injection E as <- _. unfold sent in Es.
    destruct (c_phase (d_calls d k)) eqn:Ek; try (injection Es as <-; auto; fail). assert (j <> k) by congruence.
    destruct (c_id (d_calls d k)); [destruct ok; injection Es as <-; cbn; unfold put_call; destruct (Nat.eqb_spec j k); [contradiction|auto|contradiction|auto]|].
    destruct (close_chan _ _) as [f|] eqn:Ec; [|discriminate]. injection Es as <-. cbn. destruct (close_queued _ _ _ j Ec) as [-> ->].
    unfold put_call. destruct (Nat.eqb_spec j k); [contradiction|auto].
  - destruct (fail_call k d) as [d1|] eqn:Es; [|discriminate]. injection E as <- _. unfold fail_call in Es.
    destruct (c_phase (d_calls d k)) as [| | |[i|]|] eqn:Ek; try (injection Es as <-; auto; fail); assert (j <> k) by congruence.
    + destruct (close_chan _ _) as [f|] eqn:Ec; [|discriminate]. injection Es as <-. cbn. destruct (close_queued _ _ _ j Ec) as [-> ->].
      unfold put_call. destruct (Nat.eqb_spec j k); [contradiction|auto].
    + injection Es as <-. cbn. unfold put_call. destruct (Nat.eqb_spec j k); [contradiction|auto].
  - destruct (inv_hand0 h d V) as (d1 & Eh & _ & Hn & _ & _ & _ & Hk). unfold respond in E. rewrite Eh, Hn in E.
    assert (X : d_calls d1 j = d_calls d j).
    { apply Hk. intros [a c] X. apply (i_hand _ _ V) in X as (_ & _ & _ & [Y|[Y|Y]] & _); congruence. }
    destruct (get_recv i (d_recv d1)); injection E as <- _; cbn; rewrite X; auto.
  - destruct (inv_hand0 h d V) as (d1 & Eh & _ & Hn & _ & _ & _ & Hk). rewrite Eh in E. injection E as <- _.
    assert (X : d_calls d1 j = d_calls d j).
    { apply Hk. intros [a c] X. apply (i_hand _ _ V) in X as (_ & _ & _ & [Y|[Y|Y]] & _); congruence. }
    rewrite X. auto.
  - injection E as E. unfold receive in E. destruct (c_done (d_calls d k)) eqn:Ek; [injection E as <- _; auto|].
    destruct (c_buf (d_calls d k)); [|destruct (c_closed (d_calls d k))]; injection E as <- _; cbn; auto; unfold put_call; destruct (Nat.eqb_spec j k) as [->|]; auto.
Qed.
Lemma step_recv h d o d' r j id : inv h d -> dstep d o = Ret (d', r) -> responds_to id o = false -> fails j o = false -> In (id, j) (d_recv d) -> In (id, j) (d_recv d').
Proof.
  intros V E Hr Hf H. pose proof (i_recv _ _ V _ _ H) as (A1 & A2 & A3 & A4 & A5 & A6).
  assert (U : forall k, c_id (d_calls d k) = Some id -> k = j) by (intros k Hk; eapply made_unique; eapply i_made; eauto).
  destruct o as [q|k|k ok|k|i b| |k]; cbn [dstep responds_to fails] in *.
  - injection E as <- _. exact H.
  - injection E as <- _. unfold take_call. destruct (c_phase (d_calls d k)) eqn:Ek; auto. cbn. destruct (c_id (d_calls d k)) as [i|] eqn:Ei; [|assumption].
    apply in_set. right. split; [assumption|]. cbn. intros <-. rewrite (U k Ei) in Ek. destruct A4; congruence.
  - destruct (sent k ok d) as [d1|] eqn:Es; [|discriminate]. injection E as <- _. unfold sent in Es.
    destruct (c_phase (d_calls d k)); try (injection Es as <-; assumption).
    destruct (c_id (d_calls d k)) as [i|] eqn:Ei; [|destruct (close_chan _ _); [|discriminate]; injection Es as <-; assumption].
    destruct ok; injection Es as <-; cbn; [assumption|]. apply in_del. split; [assumption|]. cbn. intros <-. rewrite (U k Ei), Nat.eqb_refl in Hf. discriminate.
  - destruct (fail_call k d) as [d1|] eqn:Es; [|discriminate]. injection E as <- _. unfold fail_call in Es.
    destruct (c_phase (d_calls d k)) as [| | |[i|]|]; try (injection Es as <-; assumption). destruct (close_chan _ _); [|discriminate]. injection Es as <-. assumption.
  - destruct (inv_hand0 h d V) as (d1 & Eh & _ & Hn & Hrv & _). unfold respond in E. rewrite Eh, Hn, Hrv in E.
    destruct (get_recv i (d_recv d)); injection E as <- _; cbn; [|now rewrite Hrv]. apply in_del. split; [assumption|]. cbn. intros <-. rewrite N.eqb_refl in Hr. discriminate.
  - destruct (inv_hand0 h d V) as (d1 & Eh & _ & Hn & Hrv & _). rewrite Eh in E. injection E as <- _. now rewrite Hrv.
  - injection E as E. unfold receive in E. destruct (c_done (d_calls d k)); [injection E as <- _; assumption|].
    destruct (c_buf (d_calls d k)); [|destruct (c_closed (d_calls d k))]; injection E as <- _; assumption.
Qed.

(* a response to a registered request reaches its caller *)
Lemma reach h d j id b : inv h d -> In (id, j) (d_recv d) -> exists d' a c, exec dstep d [DRespond id b; DHand; DReceive j] = Ret (d', [a; c; Some (j, Some (id, b))]).
Proof.
  intros V H. pose proof (i_recv _ _ V _ _ H) as (A1 & A2 & A3 & A4 & A5 & A6).
  destruct (inv_hand0 h d V) as (d1 & Eh & V1 & Hn & Hrv & _).
  destruct (inv_respond h d id b V) as (d2 & E2 & V2). unfold respond in E2. rewrite Eh, Hn in E2.
  assert (Hg : get_recv id (d_recv d1) = Some j).
  { rewrite Hrv. destruct (get_some _ _ _ H) as [k Hk]. rewrite Hk. f_equal. apply get_in, (i_recv _ _ V) in Hk as (B & _).
    eapply made_unique; eapply (i_made _ _ V); eauto. }
  rewrite Hg in E2. injection E2 as E2.
  assert (Hh : d_hand d2 = Some (j, (id, b))) by (subst d2; reflexivity).
  destruct (inv_hand0 _ d2 V2) as (d3 & E3 & V3 & _ & _ & Hb & _). specialize (Hb _ _ Hh).
  assert (Hd : c_done (d_calls d3 j) = false).
  { destruct (c_done (d_calls d3 j)) eqn:X; [|reflexivity]. apply (i_done _ _ V3) in X as [_ X]. congruence. }
  cbn [exec dstep]. unfold respond. rewrite Eh, Hn, Hg, E2. cbn [quiet]. rewrite E3. cbn [quiet]. unfold receive. rewrite Hd, Hb. eauto.
Qed.

Lemma run_queued h0 h1 j d rs : short (h0 ++ DCall true :: h1) -> exec dstep no_calls (h0 ++ DCall true :: h1) = Ret (d, rs) -> requested h0 j -> none_of (takes j) h1 ->
  queued j (id_after h0) d.
Proof.
  revert d rs. induction h1 as [|o h1 IH] using rev_ind; intros d rs Hs E Hq Hn.
  - destruct (inv_run h0 (short_app _ _ Hs)) as (d0 & rs0 & E0 & V). rewrite exec_app, E0 in E. cbn in E. injection E as <- _.
    assert (X : d_count d0 = j) by (unfold requested in Hq; pose proof (i_count _ _ V); lia). unfold queued. cbn. unfold put_call. rewrite X, Nat.eqb_refl. cbn.
    split; [reflexivity|]. f_equal. unfold id_after, next_id. rewrite (i_next _ _ V). apply N.mod_small.
    unfold short in Hs. rewrite app_length in Hs. pose proof (count_le is_request h0). cbn [length] in Hs. change (2 ^ 64) with 18446744073709551616 in *. lia.
  - apply none_of_app in Hn as [Hn Ho]. apply none_of_cons in Ho as [Ho _].
    change (DCall true :: h1 ++ [o]) with ((DCall true :: h1) ++ [o]) in *. rewrite app_assoc in *.
    destruct (inv_run _ (short_app _ _ Hs)) as (d0 & rs0 & E0 & V). rewrite exec_app, E0 in E. cbn in E.
    destruct (dstep d0 o) as [[d1 r]|] eqn:Es; [|discriminate]. injection E as <- _. eapply step_queued; eauto. eapply IH; eauto. eapply short_app; eauto.
Qed.
Lemma run_recv h0 h1 h2 j d rs : let h := h0 ++ DCall true :: h1 ++ DTake j :: h2 in
  short h -> exec dstep no_calls h = Ret (d, rs) -> requested h0 j -> none_of (takes j) h1 -> none_of (responds_to (id_after h0)) h2 -> none_of (fails j) h2 ->
  In (id_after h0, j) (d_recv d).
Proof.
  intros h. subst h. revert d rs. induction h2 as [|o h2 IH] using rev_ind; intros d rs Hs E Hq Hn Hr Hf.
  - change (DCall true :: h1 ++ [DTake j]) with ((DCall true :: h1) ++ [DTake j]) in *. rewrite app_assoc in *.
    destruct (inv_run _ (short_app _ _ Hs)) as (d0 & rs0 & E0 & V). rewrite exec_app, E0 in E. cbn in E. injection E as <- _.
    destruct (run_queued _ _ _ _ _ (short_app _ _ Hs) E0 Hq Hn) as [A B]. unfold take_call. rewrite A. cbn. rewrite B. apply in_set. now left.
  - apply none_of_app in Hr as [Hr Ho]. apply none_of_cons in Ho as [Ho _]. apply none_of_app in Hf as [Hf Hof]. apply none_of_cons in Hof as [Hof _].
    change (DCall true :: h1 ++ DTake j :: h2 ++ [o]) with (DCall true :: h1 ++ (DTake j :: h2) ++ [o]) in *.
    rewrite (app_assoc h1), app_comm_cons, app_assoc in Hs, E.
    destruct (inv_run _ (short_app _ _ Hs)) as (d0 & rs0 & E0 & V). rewrite exec_app, E0 in E. cbn in E.
    destruct (dstep d0 o) as [[d1 r]|] eqn:Es; [|discriminate]. injection E as <- _. eapply step_recv; eauto. eapply IH; eauto. eapply short_app; eauto.
Qed.

(* a call stays with the enclave until the enclave returns *)
Lemma step_taken h d o d' r j : inv h d -> dstep d o = Ret (d', r) -> returns j o = false -> c_phase (d_calls d j) = PTaken -> c_phase (d_calls d' j) = PTaken.
Proof.
  intros V E Ht Hp. destruct o as [q|k|k ok|k|i b| |k]; cbn [dstep returns] in *.
  - injection E as <- _. cbn. unfold put_call. destruct (Nat.eqb_spec j (d_count d)) as [->|]; [|auto].
    rewrite (i_absent _ _ V) in Hp by lia. discriminate.
  - injection E as <- _. unfold take_call. destruct (c_phase (d_calls d k)) eqn:Ek; auto. cbn. unfold put_call. destruct (Nat.eqb_spec j k); [reflexivity|assumption].
  - destruct (sent k ok d) as [d1|] eqn:Es; [|discriminate]. injection E as <- _. unfold sent in Es.
    assert (j <> k) by (intros ->; rewrite Nat.eqb_refl in Ht; discriminate).
    destruct (c_phase (d_calls d k)) eqn:Ek; try (injection Es as <-; auto; fail).
    destruct (c_id (d_calls d k)); [destruct ok; injection Es as <-; cbn; unfold put_call; destruct (Nat.eqb_spec j k); [contradiction|auto|contradiction|auto]|].
    destruct (close_chan _ _) as [f|] eqn:Ec; [|discriminate]. injection Es as <-. cbn. destruct (close_queued _ _ _ j Ec) as [-> _].
    unfold put_call. destruct (Nat.eqb_spec j k); [contradiction|auto].
  - destruct (fail_call k d) as [d1|] eqn:Es; [|discriminate]. injection E as <- _. unfold fail_call in Es.
    destruct (c_phase (d_calls d k)) as [| | |[i|]|] eqn:Ek; try (injection Es as <-; auto; fail); assert (j <> k) by congruence.
    + destruct (close_chan _ _) as [f|] eqn:Ec; [|discriminate]. injection Es as <-. cbn. destruct (close_queued _ _ _ j Ec) as [-> _].
      unfold put_call. destruct (Nat.eqb_spec j k); [contradiction|auto].
    + injection Es as <-. cbn. unfold put_call. destruct (Nat.eqb_spec j k); [contradiction|auto].
  - assert (X : forall d1, hand_over d = Ret d1 -> c_phase (d_calls d1 j) = c_phase (d_calls d j)).
    { unfold hand_over. intros d1 Eh. destruct (d_hand d) as [[k m]|]; [|injection Eh as <-; reflexivity]. destruct (c_closed (d_calls d k)); [discriminate|].
      destruct (c_buf (d_calls d k)); [injection Eh as <-; reflexivity|]. destruct (close_chan _ _) as [f|] eqn:Ec; [|discriminate]. injection Eh as <-.
      cbn. destruct (close_queued _ _ _ j Ec) as [-> _]. unfold put_call. destruct (Nat.eqb_spec j k) as [->|]; reflexivity. }
    unfold respond in E. destruct (hand_over d) as [d1|]; [|discriminate]. specialize (X _ eq_refl).
    destruct (d_hand d1); [|destruct (get_recv i (d_recv d1))]; injection E as <- _; cbn; congruence.
  - assert (X : forall d1, hand_over d = Ret d1 -> c_phase (d_calls d1 j) = c_phase (d_calls d j)).
    { unfold hand_over. intros d1 Eh. destruct (d_hand d) as [[k m]|]; [|injection Eh as <-; reflexivity]. destruct (c_closed (d_calls d k)); [discriminate|].
      destruct (c_buf (d_calls d k)); [injection Eh as <-; reflexivity|]. destruct (close_chan _ _) as [f|] eqn:Ec; [|discriminate]. injection Eh as <-.
      cbn. destruct (close_queued _ _ _ j Ec) as [-> _]. unfold put_call. destruct (Nat.eqb_spec j k) as [->|]; reflexivity. }
    destruct (hand_over d) as [d1|]; [|discriminate]. specialize (X _ eq_refl). injection E as <- _. congruence.
  - injection E as E. unfold receive in E. destruct (c_done (d_calls d k)) eqn:Ek; [injection E as <- _; auto|].
    destruct (c_buf (d_calls d k)); [|destruct (c_closed (d_calls d k))]; injection E as <- _; cbn; auto; unfold put_call; destruct (Nat.eqb_spec j k) as [->|]; auto.
Qed.
Lemma run_taken h0 h1 h2 j d rs : let h := h0 ++ DCall true :: h1 ++ DTake j :: h2 in
  short h -> exec dstep no_calls h = Ret (d, rs) -> requested h0 j -> none_of (takes j) h1 -> none_of (returns j) h2 -> c_phase (d_calls d j) = PTaken.
Proof.
  intros h. subst h. revert d rs. induction h2 as [|o h2 IH] using rev_ind; intros d rs Hs E Hq Hn Hr.
  - change (DCall true :: h1 ++ [DTake j]) with ((DCall true :: h1) ++ [DTake j]) in *. rewrite app_assoc in *.
    destruct (inv_run _ (short_app _ _ Hs)) as (d0 & rs0 & E0 & V). rewrite exec_app, E0 in E. cbn in E. injection E as <- _.
    destruct (run_queued _ _ _ _ _ (short_app _ _ Hs) E0 Hq Hn) as [A B]. unfold take_call. rewrite A. cbn. unfold put_call. now rewrite Nat.eqb_refl.
  - apply none_of_app in Hr as [Hr Ho]. apply none_of_cons in Ho as [Ho _].
    change (DCall true :: h1 ++ DTake j :: h2 ++ [o]) with (DCall true :: h1 ++ (DTake j :: h2) ++ [o]) in *.
    rewrite (app_assoc h1), app_comm_cons, app_assoc in Hs, E.
    destruct (inv_run _ (short_app _ _ Hs)) as (d0 & rs0 & E0 & V). rewrite exec_app, E0 in E. cbn in E.
    destruct (dstep d0 o) as [[d1 r]|] eqn:Es; [|discriminate]. injection E as <- _. eapply step_taken; eauto. eapply IH; eauto. eapply short_app; eauto.
Qed.
(* the error of the enclave reaches the caller *)
Lemma fail_reach h d j id : inv h d -> In (id, j) (d_recv d) -> c_phase (d_calls d j) = PTaken ->
  exists d', exec dstep d [DSent j false; DFail j; DReceive j] = Ret (d', [None; None; Some (j, None)]).
Proof.
  intros V H Hp. pose proof (i_recv _ _ V _ _ H) as (A1 & A2 & A3 & A4 & A5 & A6).
  assert (Hg : get_recv id (d_recv d) = Some j).
  { destruct (get_some _ _ _ H) as [k Hk]. rewrite Hk. f_equal. apply get_in, (i_recv _ _ V) in Hk as (B & _).
    eapply made_unique; eapply (i_made _ _ V); eauto. }
  assert (Hd : c_done (d_calls d j) = false).
  { destruct (c_done (d_calls d j)) eqn:X; [|reflexivity]. apply (i_done _ _ V) in X as [X _]. congruence. }
  cbn [exec dstep]. unfold sent. rewrite Hp, A1, Hg. cbn [quiet]. unfold fail_call. cbn [d_calls]. unfold put_call at 1. rewrite Nat.eqb_refl.
  cbn [with_phase c_phase]. unfold close_chan. unfold put_call at 1. rewrite Nat.eqb_refl. cbn [c_closed with_phase]. unfold put_call at 1. rewrite Nat.eqb_refl.
  cbn [c_closed with_phase]. rewrite A2. cbn [quiet]. unfold receive. cbn [d_calls]. repeat (unfold put_call at 1; rewrite Nat.eqb_refl; cbn [c_done c_buf c_closed with_phase]).
  unfold put_call. rewrite !Nat.eqb_refl. cbn. rewrite Hd, A3. eauto.
Qed.
