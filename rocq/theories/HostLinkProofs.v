(* Proofs about the transport of peer messages between hosts. *)
From Verif Require Import HostLinkSpec.

(* --- sequence numbers -------------------------------------------------------- *)
Definition lt (a b : seqno) : Prop := sq_epoch a < sq_epoch b \/ (sq_epoch a = sq_epoch b /\ sq_seq a < sq_seq b).
Definition le (a b : seqno) : Prop := lt a b \/ a = b.
Definition small (s : seqno) : Prop := sq_epoch s < 2 ^ 31 /\ sq_seq s < 2 ^ 62.
Lemma diff32_small a b : a < 2 ^ 31 -> b < 2 ^ 31 -> diff32 a b = (Z.of_N a - Z.of_N b)%Z.
Proof.
  intros Ha Hb. unfold diff32. change (2 ^ 31) with 2147483648 in *. change (2 ^ 32)%Z with 4294967296%Z. change (2 ^ 31)%Z with 2147483648%Z.
  destruct (Z_le_gt_dec 0 (Z.of_N a - Z.of_N b)) as [H|H].
  - rewrite Z.mod_small by lia. destruct (Z.ltb_spec (Z.of_N a - Z.of_N b) 2147483648); lia.
  - rewrite <- (Z_mod_plus_full _ 1), Z.mod_small by lia. destruct (Z.ltb_spec (Z.of_N a - Z.of_N b + 1 * 4294967296) 2147483648); lia.
Qed.
Lemma diff64_small a b : a < 2 ^ 62 -> b < 2 ^ 62 -> diff64 a b = (Z.of_N a - Z.of_N b)%Z.
Proof.
  intros Ha Hb. unfold diff64. change (2 ^ 62) with 4611686018427387904 in *. change (2 ^ 64)%Z with 18446744073709551616%Z. change (2 ^ 63)%Z with 9223372036854775808%Z.
  destruct (Z_le_gt_dec 0 (Z.of_N a - Z.of_N b)) as [H|H].
  - rewrite Z.mod_small by lia. destruct (Z.ltb_spec (Z.of_N a - Z.of_N b) 9223372036854775808); lia.
  - rewrite <- (Z_mod_plus_full _ 1), Z.mod_small by lia. destruct (Z.ltb_spec (Z.of_N a - Z.of_N b + 1 * 18446744073709551616) 9223372036854775808); lia.
Qed.
Lemma cmp_pos a b : small a -> small b -> (0 < cmp a b)%Z <-> lt b a.
Proof.
  intros [A1 A2] [B1 B2]. unfold cmp, lt. rewrite diff32_small, diff64_small by assumption.
  destruct (Z.eqb_spec (Z.of_N (sq_epoch a) - Z.of_N (sq_epoch b)) 0); lia.
Qed.
Lemma cmp_neg a b : small a -> small b -> (cmp a b < 0)%Z <-> lt a b.
Proof.
  intros [A1 A2] [B1 B2]. unfold cmp, lt. rewrite diff32_small, diff64_small by assumption.
  destruct (Z.eqb_spec (Z.of_N (sq_epoch a) - Z.of_N (sq_epoch b)) 0); lia.
Qed.
Lemma lt_trans a b c : lt a b -> lt b c -> lt a c. Proof. unfold lt; lia. Qed.
Lemma le_trans a b c : le a b -> le b c -> le a c.
Proof. intros [H1| ->] [H2| ->]; unfold le; eauto using lt_trans. Qed.
Lemma le_lt_trans a b c : le a b -> lt b c -> lt a c.
Proof. intros [H1| ->] H2; eauto using lt_trans. Qed.
Lemma lt_irrefl a : ~ lt a a. Proof. unfold lt; lia. Qed.
Lemma not_lt a b : ~ lt b a <-> le a b.
Proof.
  unfold le, lt. destruct a as [e s], b as [e' s']; cbn. split.
  - intros H. destruct (N.lt_trichotomy e e') as [?|[->|?]]; [left; lia| |exfalso; lia].
    destruct (N.lt_trichotomy s s') as [?|[->|?]]; [left; lia|now right|exfalso; lia].
  - intros [?|X]; [lia|]. injection X as -> ->. lia.
Qed.
Lemma w64_small n : n < 2 ^ 62 -> w64 (n + 1) = n + 1.
Proof. intros H. unfold w64. apply N.mod_small. change (2 ^ 62) with 4611686018427387904 in H. change (2 ^ 64) with 18446744073709551616. lia. Qed.
Lemma next_small s : small s -> next s = Sq (sq_epoch s) (sq_seq s + 1).
Proof. intros [_ H]. unfold next. now rewrite w64_small. Qed.
Lemma next_epoch_small s : small s -> next_epoch s = Sq (sq_epoch s + 1) 0.
Proof.
  intros [H _]. unfold next_epoch, w32. f_equal. apply N.mod_small. change (2 ^ 31) with 2147483648 in H. change (2 ^ 32) with 4294967296. lia.
Qed.
Lemma follows_small a b : small b -> follows a b = true <->
  (sq_epoch b < sq_epoch a /\ sq_seq a = 0) \/ (sq_epoch a = sq_epoch b /\ sq_seq a = sq_seq b + 1).
Proof.
  intros [_ H]. unfold follows. rewrite w64_small by assumption. rewrite Bool.orb_true_iff, !Bool.andb_true_iff, N.ltb_lt, !N.eqb_eq. reflexivity.
Qed.

(* --- subsequences --------------------------------------------------------------- *)
Lemma sub_refl {A} (a : list A) : subseq a a.
Proof. induction a; [apply sub_nil|now apply sub_take]. Qed.
Lemma sub_empty {A} (a : list A) : subseq [] a.
Proof. induction a; constructor; auto. Qed.
Lemma sub_trans {A} (a b c : list A) : subseq a b -> subseq b c -> subseq a c.
Proof.
  intros H1 H2. revert a H1. induction H2 as [|x b c H2 IH|x b c H2 IH]; intros a H1; [assumption|apply sub_skip; auto|].
  inversion H1; subst; [apply sub_skip|apply sub_take]; auto.
Qed.
Lemma sub_app {A} (a b c d : list A) : subseq a b -> subseq c d -> subseq (a ++ c) (b ++ d).
Proof. induction 1; intros H2; cbn; [assumption|apply sub_skip; auto|apply sub_take; auto]. Qed.
Lemma sub_filter {A} (f : A -> bool) a b : subseq a b -> subseq (filter f a) (filter f b).
Proof. induction 1; cbn; [apply sub_nil|destruct (f x); [apply sub_skip|]; auto|destruct (f x); [apply sub_take|]; auto]. Qed.
Lemma sub_filter_of {A} (f : A -> bool) a : subseq (filter f a) a.
Proof. induction a as [|x a IH]; cbn; [apply sub_nil|destruct (f x); [apply sub_take|apply sub_skip]; auto]. Qed.
Lemma sub_filter_imp {A} (f g : A -> bool) a : (forall x, In x a -> f x = true -> g x = true) -> subseq (filter f a) (filter g a).
Proof.
  induction a as [|x a IH]; intros H; cbn; [constructor|].
  assert (IH' : subseq (filter f a) (filter g a)) by (apply IH; intros; apply H; [now right|assumption]).
  destruct (f x) eqn:E.
  - rewrite (H x (or_introl eq_refl) E). now apply sub_take.
  - destruct (g x); [apply sub_skip|]; assumption.
Qed.
Lemma sub_cons_inv {A} (x : A) a b : subseq (x :: a) b -> exists u v, b = u ++ x :: v /\ subseq a v.
Proof.
  intros H. remember (x :: a) as l eqn:E. revert x a E. induction H as [|y l b H IH|y l b H IH]; intros x a E; [discriminate| |].
  - destruct (IH _ _ E) as (u & v & -> & Hv). exists (y :: u), v. auto.
  - injection E as -> ->. exists [], b. auto.
Qed.
Lemma sub_map {A B} (f : A -> B) a b : subseq a b -> subseq (map f a) (map f b).
Proof. induction 1; cbn; [apply sub_nil|apply sub_skip; auto|apply sub_take; auto]. Qed.
Lemma sub_in {A} (a b : list A) x : subseq a b -> In x a -> In x b.
Proof. induction 1; cbn; [auto|auto|]. intros [->|]; auto. Qed.

(* --- in order, at most once ------------------------------------------------------- *)
Section P.
Variable buffer : N.
Notation lstep := (lstep buffer).
Notation lexec := (exec lstep).

Definition live (seen : seqno) (x : seqno * pmsg) : bool := (0 <? cmp (fst x) seen)%Z.
Definition okq (k : N) (s : seqno) : Prop := sq_epoch s <= k /\ sq_seq s <= 2 * k + 1.
Record inv (k : N) (S : list (seqno * pmsg)) (D : list pmsg) (l : link) : Prop := {
  i_seen : sq_epoch (h_seen l) <= k /\ sq_seq (h_seen l) <= k;
  i_last : okq k (h_last l);
  i_cur : h_up l = true -> okq k (h_cur l);
  i_pend : forall x, In x (h_pending l) -> okq k (fst x);
  i_data : forall x, In x (h_data l) -> okq k (fst x);
  i_acks : forall x, In x (h_acks l) -> okq k x;
  i_len : N.of_nat (length (h_pending l)) <= k;
  i_link : if h_srv l then subseq (filter (live (h_seen l)) (h_pending l)) (h_data l) else h_data l = [];
  i_split : exists S1 S2, S = S1 ++ S2 /\ subseq D (map snd S1) /\
     subseq (filter (live (h_seen l)) (h_data l)) S2 /\ subseq (filter (live (h_seen l)) (h_pending l)) S2 }.

Lemma okq_small k s : k < 2 ^ 31 -> okq k s -> small s.
Proof. unfold okq, small. change (2 ^ 31) with 2147483648. change (2 ^ 62) with 4611686018427387904. lia. Qed.
Lemma okq_more k s : okq k s -> okq (k + 1) s.
Proof. unfold okq. lia. Qed.
Lemma drop_acked_sub a p : subseq (drop_acked a p) p.
Proof. induction p as [|[s m] p IH]; cbn; [constructor|destruct (0 <? cmp s a)%Z; [apply sub_refl|apply sub_skip; assumption]]. Qed.
Lemma drop_acked_len a p : (length (drop_acked a p) <= length p)%nat.
Proof. induction p as [|[s m] p IH]; cbn; [lia|destruct (0 <? cmp s a)%Z; cbn; lia]. Qed.
Lemma next_n_seq n s : sq_seq s + N.of_nat n < 2 ^ 62 -> next_n n s = Sq (sq_epoch s) (sq_seq s + N.of_nat n).
Proof.
  revert s. induction n as [|n IH]; intros s H; cbn [next_n]; [destruct s; cbn; f_equal; lia|].
  assert (Hn : next s = Sq (sq_epoch s) (sq_seq s + 1)) by (unfold next; rewrite w64_small by lia; reflexivity).
  rewrite IH; rewrite Hn; cbn [sq_epoch sq_seq]; [f_equal; lia|lia].
Qed.

Lemma inv_more k S D l : inv k S D l -> inv (k + 1) S D l.
Proof.
  intros [V1 V2 V3 V4 V5 V6 V7 V8 V9]. constructor; auto; try lia; try (unfold okq in *; lia);
    intros; apply okq_more; auto.
Qed.
(* one step *)
Lemma inv_step k S D l o l' r : k + 1 < 2 ^ 31 -> inv k S D l -> lstep l o = Ret (l', r) ->
  exists S', map snd S' = map snd S ++ sent [r] /\ inv (k + 1) S' (D ++ got [r]) l'.
Proof.
  intros Hk V Es.
  assert (Hk' : k < 2 ^ 31) by lia. assert (Hbig : 2 * (k + 1) + 2 < 2 ^ 62) by (change (2 ^ 31) with 2147483648 in *; change (2 ^ 62) with 4611686018427387904; lia).
  assert (Quiet : sent [r] = [] -> got [r] = [] -> inv (k + 1) S D l' -> exists S', map snd S' = map snd S ++ sent [r] /\ inv (k + 1) S' (D ++ got [r]) l').
  { intros -> -> H. exists S. rewrite !app_nil_r. auto. }
  pose proof V as [V1 V2 V3 V4 V5 V6 V7 V8 V9]. injection Es as Es.
  assert (Ack : forall a l1 l2, okq k a -> h_pending l1 = h_pending l -> h_seen l1 = h_seen l -> h_last l1 = h_last l -> process_ack a l1 = Some l2 ->
     l2 = Link (h_there l1) (h_abandoned l1) (h_queue l1) (drop_acked a (h_pending l)) a (h_up l1) (h_cur l1) (h_srv l1) (h_data l1) (h_acks l1) (h_seen l1)).
  { intros a l1 l2 Ha E1 E2 E3. unfold process_ack. destruct (_ <? 0)%Z; [discriminate|]. intros X. injection X as <-. now rewrite E1. }
  assert (PI : forall a, subseq (filter (live (h_seen l)) (drop_acked a (h_pending l))) (filter (live (h_seen l)) (h_pending l))) by (intros a; apply sub_filter, drop_acked_sub).
  destruct o as [m| |ok| | | | |]; cbn [HostLink.lstep] in Es.
  - (* enqueue: only the queue, or a new sender *)
    unfold enqueue in Es.
    assert (Put : forall l0 q a b, h_pending l0 = h_pending l \/ (h_pending l0 = [] /\ h_last l0 = Sq 0 0 /\ h_up l0 = false) ->
       (h_last l0 = h_last l \/ h_last l0 = Sq 0 0) -> (h_up l0 = true -> h_up l = true) -> h_cur l0 = h_cur l -> h_srv l0 = h_srv l -> h_data l0 = h_data l ->
       h_acks l0 = h_acks l -> h_seen l0 = h_seen l ->
       inv (k + 1) S D (Link a b q (h_pending l0) (h_last l0) (h_up l0) (h_cur l0) (h_srv l0) (h_data l0) (h_acks l0) (h_seen l0))).
    { intros l0 q a b Hp Hl Hu Hc Hs Hd Ha Hn. rewrite Hc, Hs, Hd, Ha, Hn. apply inv_more in V. destruct V as [W1 W2 W3 W4 W5 W6 W7 W8 W9].
      assert (Hp' : h_pending l0 = h_pending l \/ h_pending l0 = []) by tauto.
      constructor; cbn; auto.
      - destruct Hl as [->| ->]; [assumption|]. unfold okq; cbn [sq_epoch sq_seq]; lia.
      - destruct Hp' as [->| ->]; [assumption|contradiction].
      - destruct Hp' as [->| ->]; [assumption|cbn; lia].
      - destruct Hp' as [->| ->]; [assumption|]. destruct (h_srv l); [apply sub_empty|assumption].
      - destruct W9 as (S1 & S2 & X1 & X2 & X3 & X4). exists S1, S2. do 3 (split; [assumption|]). destruct Hp' as [->| ->]; [assumption|apply sub_empty]. }
    destruct (h_there l).
    + destruct (_ <? buffer); injection Es as <- <-; apply Quiet; auto; apply Put; auto.
    + destruct (h_abandoned l); [destruct (resets m); [injection Es as <- <-; apply Quiet; auto using inv_more|]; destruct (negb (establishing m)); [injection Es as <- <-; apply Quiet; auto using inv_more|]|];
      (destruct (_ <? buffer); injection Es as <- <-; apply Quiet; auto;
       match goal with |- inv _ _ _ (Link ?a ?b ?q _ _ _ _ _ _ _ _) =>
         apply (Put (Link true false [] [] (Sq 0 0) false (h_cur l) (h_srv l) (h_data l) (h_acks l) (h_seen l)) q a b); cbn; auto; discriminate end).
  - (* send *)
    unfold send_one in Es. destruct (h_up l) eqn:Eu; cbn [negb] in Es; [|injection Es as <- <-; apply Quiet; auto using inv_more].
    destruct (h_queue l) as [|m q]; [injection Es as <- <-; apply Quiet; auto using inv_more|]. injection Es as <- <-.
    specialize (V3 eq_refl). pose proof (okq_small k _ Hk' V3) as Hsm.
    set (s := if establishing m then next_epoch (h_cur l) else h_cur l).
    assert (Hs : okq (k + 1) s) by (unfold s; destruct (establishing m); [rewrite next_epoch_small by assumption; unfold okq in *; cbn [sq_epoch sq_seq]; lia|now apply okq_more]).
    assert (Hns : okq (k + 1) (next s)).
    { assert (Hss : small s) by (eapply okq_small; [|exact Hs]; lia). rewrite (next_small _ Hss). unfold s. destruct (establishing m).
      - rewrite next_epoch_small by assumption. unfold okq in *; cbn [sq_epoch sq_seq]; lia.
      - unfold okq in *; cbn [sq_epoch sq_seq]; lia. }
    exists (S ++ [(s, m)]). split; [cbn; now rewrite map_app|]. cbn [got flat_map r_got]. rewrite app_nil_r.
    set (p := if establishing m then [] else h_pending l).
    assert (Hp : subseq p (h_pending l)) by (unfold p; destruct (establishing m); [apply sub_empty|apply sub_refl]).
    constructor; cbn; auto; try lia.
    + now apply okq_more.
    + intros x Hx. apply in_app_or in Hx as [Hx|[<-|[]]]; [|assumption]. apply okq_more, V4. eapply sub_in; eauto.
    + intros x Hx. destruct (h_srv l); [|contradiction]. apply in_app_or in Hx as [Hx|[<-|[]]]; [|assumption]. apply okq_more, V5. assumption.
    + intros x Hx. apply okq_more; auto.
    + rewrite app_length. cbn. unfold p. destruct (establishing m); cbn; lia.
    + destruct (h_srv l); [|reflexivity]. rewrite filter_app. apply sub_app; [|apply sub_filter_of].
      eapply sub_trans; [apply sub_filter; exact Hp|exact V8].
    + destruct V9 as (S1 & S2 & -> & X2 & X3 & X4). exists S1, (S2 ++ [(s, m)]). rewrite <- app_assoc. split; [reflexivity|]. split; [assumption|]. split.
      * destruct (h_srv l); [|apply sub_empty]. rewrite filter_app. apply sub_app; [assumption|apply sub_filter_of].
      * rewrite filter_app. apply sub_app; [|apply sub_filter_of]. eapply sub_trans; [apply sub_filter; exact Hp|exact X4].
  - (* deliver *)
    unfold deliver in Es. destruct (h_srv l) eqn:Esv; cbn [negb] in Es; [|injection Es as <- <-; apply Quiet; auto using inv_more].
    destruct (h_data l) as [|[s m] d] eqn:Ed; [injection Es as <- <-; apply Quiet; auto; apply inv_more; exact V|].
    assert (Hs : okq k s) by (apply (V5 (s, m)); now left). assert (Hsm : small s) by (eapply okq_small; eauto).
    assert (Hsn : small (h_seen l)) by (eapply okq_small; [exact Hk'|unfold okq; lia]).
    destruct (cmp s (h_seen l) <=? 0)%Z eqn:Ec.
    + (* seen before *)
      injection Es as <- <-. apply Quiet; auto. apply Z.leb_le in Ec.
      assert (Hdead : live (h_seen l) (s, m) = false) by (unfold live; cbn; apply Z.ltb_ge; lia).
      constructor; cbn; auto; try lia.
      * now apply okq_more.
      * intros Hu. apply okq_more; auto.
      * intros x Hx. apply okq_more; auto.
      * intros x Hx. apply okq_more, V5; now right.
      * intros x Hx. destruct (h_up l); [|contradiction]. apply in_app_or in Hx as [Hx|[<-|[]]]; [apply okq_more; auto|]. unfold okq; lia.
      * apply (sub_filter (live (h_seen l))) in V8. cbn in V8. rewrite Hdead in V8. eapply sub_trans; [|eapply sub_trans; [exact V8|apply sub_filter_of]].
        clear. induction (h_pending l) as [|x p IH]; cbn; [constructor|]. destruct (live (h_seen l) x) eqn:E1; cbn; rewrite ?E1; [now apply sub_take|assumption].
      * destruct V9 as (S1 & S2 & -> & X2 & X3 & X4). exists S1, S2. cbn in X3. rewrite Hdead in X3. auto.
    + destruct (follows s (h_seen l)) eqn:Ef; cbn [negb] in Es.
      2: { injection Es as <- <-. apply Quiet; auto. apply inv_more. constructor; cbn; auto; try contradiction.
           destruct V9 as (S1 & S2 & -> & X2 & X3 & X4). exists S1, S2. auto using sub_empty. }
      injection Es as <- <-. apply Z.leb_gt in Ec. apply (proj1 (cmp_pos _ _ Hsm Hsn)) in Ec.
      apply follows_small in Ef; [|assumption].
      assert (Hseen : sq_epoch s <= k + 1 /\ sq_seq s <= k + 1) by (destruct Ef as [[? ?]|[? ?]]; unfold okq in *; lia).
      assert (Mono : forall x, okq k (fst x) -> live s x = true -> live (h_seen l) x = true).
      { intros x Hx. unfold live. rewrite !Z.ltb_lt. assert (small (fst x)) by (eapply okq_small; eauto). rewrite !cmp_pos by assumption. intros H1. exact (lt_trans _ _ _ Ec H1). }
      assert (Hlive : live (h_seen l) (s, m) = true) by (unfold live; cbn; apply Z.ltb_lt, cmp_pos; assumption).
      assert (Hdead : live s (s, m) = false).
      { unfold live; cbn. apply Z.ltb_ge. destruct (Z.le_gt_cases (cmp s s) 0) as [|X]; [assumption|exfalso]. apply Z.lt_gt, Z.gt_lt in X. apply cmp_pos in X; auto. now apply lt_irrefl in X. }
      assert (Hpend : subseq (filter (live s) (h_pending l)) (filter (live s) d)).
      { apply (sub_filter (live s)) in V8. cbn in V8. rewrite Hdead in V8. eapply sub_trans; [|exact V8].
        assert (X : forall p, (forall x, In x p -> okq k (fst x)) -> subseq (filter (live s) p) (filter (live s) (filter (live (h_seen l)) p))).
        { clear - Mono. induction p as [|x p IH]; intros Hp; cbn; [constructor|].
          assert (IH' : subseq (filter (live s) p) (filter (live s) (filter (live (h_seen l)) p))) by (apply IH; intros; apply Hp; now right).
          destruct (live s x) eqn:E1.
          - rewrite (Mono x (Hp x (or_introl eq_refl)) E1). cbn. rewrite E1. now apply sub_take.
          - destruct (live (h_seen l) x); cbn; rewrite ?E1; assumption. }
        apply X. assumption. }
      destruct V9 as (S1 & S2 & -> & X2 & X3 & X4). cbn in X3. rewrite Hlive in X3.
      destruct (sub_cons_inv _ _ _ X3) as (A & B & -> & HB).
      assert (Hd : subseq (filter (live s) d) B).
      { eapply sub_trans; [|exact HB]. apply sub_filter_imp. intros x Hx. apply Mono, V5. now right. }
      exists (S1 ++ A ++ (s, m) :: B). split; [cbn; now rewrite app_nil_r|].
      constructor; cbn; auto; try lia.
      * now apply okq_more.
      * intros Hu. apply okq_more; auto.
      * intros x Hx. apply okq_more; auto.
      * intros x Hx. apply okq_more, V5; now right.
      * intros x Hx. destruct (h_up l); [|contradiction]. apply in_app_or in Hx as [Hx|[<-|[]]]; [apply okq_more; auto|]. now apply okq_more.
      * eapply sub_trans; [exact Hpend|apply sub_filter_of].
      * exists (S1 ++ A ++ [(s, m)]), B. split; [now rewrite <- !app_assoc|]. split; [|split; [assumption|eapply sub_trans; [exact Hpend|exact Hd]]].
        rewrite map_app, map_app. apply sub_app; [assumption|]. destruct ok; cbn; [|apply sub_empty].
        change [m] with ([] ++ [m]). apply sub_app; [apply sub_empty|apply sub_refl].
  - (* ack *)
    unfold read_ack in Es. destruct (h_up l) eqn:Eu; cbn [negb] in Es; [|injection Es as <- <-; apply Quiet; auto using inv_more].
    destruct (h_acks l) as [|a ra] eqn:Ea; [injection Es as <- <-; apply Quiet; auto; apply inv_more; exact V|].
    assert (Ha : okq k a) by (apply V6; now left).
    match type of Es with (match process_ack a ?x with _ => _ end) = _ => set (l1 := x) in * end.
    destruct (process_ack a l1) as [l2|] eqn:Ep.
    + apply (Ack a l1 l2 Ha eq_refl eq_refl eq_refl) in Ep. injection Es as <- <-. apply Quiet; auto. subst l2. unfold l1. apply inv_more. constructor; cbn; auto.
      * intros x Hx. apply V4. eapply sub_in; [apply drop_acked_sub|exact Hx].
      * intros x Hx. apply V6; now right.
      * pose proof (drop_acked_len a (h_pending l)). lia.
      * destruct (h_srv l); [|assumption]. eapply sub_trans; [apply PI|assumption].
      * destruct V9 as (S1 & S2 & -> & X2 & X3 & X4). exists S1, S2. do 3 (split; auto). eapply sub_trans; [apply PI|assumption].
    + injection Es as <- <-. apply Quiet; auto. apply inv_more. unfold l1. constructor; cbn; auto; try discriminate; try contradiction.
  - injection Es as <- <-. apply Quiet; auto. apply inv_more. constructor; cbn; auto; try discriminate; try contradiction.
  - injection Es as <- <-. apply Quiet; auto. apply inv_more. constructor; cbn; auto; try contradiction.
    destruct V9 as (S1 & S2 & -> & X2 & X3 & X4). exists S1, S2. auto using sub_empty.
  - (* connect *)
    unfold connect in Es. destruct (negb (h_there l) || h_up l)%bool; [injection Es as <- <-; apply Quiet; auto using inv_more|].
    match type of Es with (match process_ack _ ?x with _ => _ end) = _ => set (l1 := x) in * end.
    assert (Ha : okq k (h_seen l)) by (unfold okq; lia).
    destruct (process_ack (h_seen l) l1) as [l2|] eqn:Ep.
    + apply (Ack _ l1 l2 Ha eq_refl eq_refl eq_refl) in Ep. injection Es as <- <-. apply Quiet; auto. subst l2. cbn.
      assert (HA : forall x, In x (drop_acked (h_seen l) (h_pending l)) -> okq (k + 1) (fst x)) by (intros x Hx; apply okq_more, V4; eapply sub_in; [apply drop_acked_sub|exact Hx]).
      pose proof (drop_acked_len (h_seen l) (h_pending l)) as Hlen.
      constructor; cbn; auto; try lia; try contradiction.
      * now apply okq_more.
      * intros _. rewrite (next_small (h_seen l)) by (eapply okq_small; eauto).
        rewrite next_n_seq; cbn [sq_epoch sq_seq]; [unfold okq; cbn [sq_epoch sq_seq]; lia|lia].
      * apply sub_filter_of.
      * destruct V9 as (S1 & S2 & -> & X2 & X3 & X4). exists S1, S2. do 2 (split; auto). split; (eapply sub_trans; [apply PI|assumption]).
    + injection Es as <- <-. apply Quiet; auto. apply inv_more. unfold l1. constructor; cbn; auto; try discriminate; try contradiction.
      destruct V9 as (S1 & S2 & -> & X2 & X3 & X4). exists S1, S2. auto using sub_empty.
  - (* abandon *)
    unfold abandon in Es. destruct (negb (h_there l) || h_up l)%bool; [injection Es as <- <-; apply Quiet; auto using inv_more|].
    injection Es as <- <-. apply Quiet; auto. apply inv_more. constructor; cbn; auto; try discriminate; try contradiction; try lia.
    + unfold okq; cbn [sq_epoch sq_seq]; lia.
    + destruct (h_srv l); [apply sub_empty|assumption].
    + destruct V9 as (S1 & S2 & -> & X2 & X3 & X4). exists S1, S2. auto using sub_empty.
Qed.
Lemma inv_start : inv 0 [] [] no_link.
Proof.
  constructor; cbn; try contradiction; try discriminate; try lia; try (unfold okq; cbn [sq_epoch sq_seq]; lia). { 
  reflexivity. } exists [], []. repeat split; constructor.
Qed.
Lemma sent_app a b : sent (a ++ b) = sent a ++ sent b. Proof. apply flat_map_app. Qed.
Lemma got_app a b : got (a ++ b) = got a ++ got b. Proof. apply flat_map_app. Qed.
Lemma inv_exec h : forall k S D l l' rs, k + N.of_nat (length h) < 2 ^ 31 -> inv k S D l -> lexec l h = Ret (l', rs) ->
  exists S', map snd S' = map snd S ++ sent rs /\ inv (k + N.of_nat (length h)) S' (D ++ got rs) l'.
Proof.
  induction h as [|o h IH]; intros k S D l l' rs Hk V E; cbn [exec] in E.
  - injection E as <- <-. exists S. cbn. rewrite !app_nil_r, N.add_0_r. auto.
  - destruct (lstep l o) as [[l1 r]|] eqn:Es; [|discriminate]. destruct (lexec l1 h) as [[l2 rs2]|] eqn:Eh; [|discriminate]. injection E as <- <-.
    cbn [length] in Hk |- *. destruct (inv_step k S D l o l1 r) as (S1 & HS & V1); auto; [lia|].
    destruct (IH (k + 1) S1 (D ++ got [r]) l1 l2 rs2) as (S2 & HS2 & V2); auto; [lia|].
    change (r :: rs2) with ([r] ++ rs2). rewrite sent_app, got_app, !app_assoc, <- HS. exists S2. split; [assumption|].
    replace (k + N.of_nat (Datatypes.S (length h))) with (k + 1 + N.of_nat (length h)) by lia. assumption.
Qed.
Lemma inv_reached h l rs : short h -> lexec no_link h = Ret (l, rs) -> exists S, map snd S = sent rs /\ inv (N.of_nat (length h)) S (got rs) l.
Proof. intros Hs E. destruct (inv_exec h 0 [] [] _ _ _ Hs inv_start E) as (S & H1 & H2). exists S. auto. Qed.
Lemma in_order h l rs : short h -> lexec no_link h = Ret (l, rs) -> subseq (got rs) (sent rs).
Proof.
  intros Hs E. destruct (inv_reached _ _ _ Hs E) as (S & <- & [_ _ _ _ _ _ _ _ (S1 & S2 & -> & X & _)]).
  rewrite map_app, <- (app_nil_r (got rs)). apply sub_app; [assumption|apply sub_empty].
Qed.

(* --- orderly histories ------------------------------------------------------------- *)
Definition top (S : list (seqno * pmsg)) : seqno := last (map fst S) (Sq 0 0).
Definition after (p : seqno) (m : pmsg) : seqno := if establishing m then Sq (sq_epoch p + 1) 0 else Sq (sq_epoch p) (sq_seq p + 1).
Inductive chain : list (seqno * pmsg) -> Prop :=
| chain_nil : chain []
| chain_snoc S s m : chain S -> s = after (top S) m -> chain (S ++ [(s, m)]).
Lemma top_snoc S s m : top (S ++ [(s, m)]) = s.
Proof. unfold top. rewrite map_app. cbn [map fst]. apply last_last. Qed.
Lemma after_lt p m : lt p (after p m).
Proof. unfold after, lt. destruct (establishing m); cbn; lia. Qed.
Lemma chain_app_l A B : chain (A ++ B) -> chain A.
Proof.
  revert A. induction B as [|x B IH] using rev_ind; intros A H; [now rewrite app_nil_r in H|].
  rewrite app_assoc in H. inversion H as [E|S s m Hc Hs E]; [destruct (A ++ B); discriminate|].
  apply app_inj_tail in E as [-> _]. now apply IH.
Qed.
Lemma chain_mid A s m B : chain (A ++ (s, m) :: B) -> s = after (top A) m.
Proof.
  intros H. change ((s, m) :: B) with ([(s, m)] ++ B) in H. rewrite app_assoc in H. apply chain_app_l in H.
  inversion H as [E|S s' m' Hc Hs E]; [destruct A; discriminate|]. apply app_inj_tail in E as [-> E]. injection E as -> ->. assumption.
Qed.
Lemma chain_le S x : chain S -> In x S -> le (fst x) (top S).
Proof.
  induction 1 as [|S s m Hc IH Hs]; intros Hin; [contradiction|]. rewrite top_snoc.
  apply in_app_or in Hin as [Hin|[<-|[]]]; [|now right]. left. eapply le_lt_trans; [now apply IH|]. subst s. apply after_lt.
Qed.
Lemma chain_top_le A B : chain (A ++ B) -> le (top A) (top (A ++ B)).
Proof.
  destruct A as [|x A _] using rev_ind; intros H.
  - apply not_lt. unfold lt, top; cbn. lia.
  - destruct x as [s m]. rewrite top_snoc. apply (chain_le _ (s, m) H). rewrite !in_app_iff. cbn. auto.
Qed.
Lemma chain_gt A x B : chain (A ++ B) -> In x B -> lt (top A) (fst x).
Proof.
  intros H Hin. apply in_split in Hin as (B1 & B2 & ->). destruct x as [s m]. cbn.
  rewrite app_assoc in H. pose proof (chain_mid _ _ _ _ H) as ->. apply chain_app_l in H.
  eapply le_lt_trans; [apply (chain_top_le A B1 H)|apply after_lt].
Qed.
Lemma chain_bound S x : chain S -> In x S -> sq_epoch (fst x) <= N.of_nat (length S) /\ sq_seq (fst x) <= N.of_nat (length S).
Proof.
  intros H. assert (G : (sq_epoch (top S) <= N.of_nat (length S) /\ sq_seq (top S) <= N.of_nat (length S)) /\
    forall x, In x S -> sq_epoch (fst x) <= N.of_nat (length S) /\ sq_seq (fst x) <= N.of_nat (length S)); [|apply (proj2 G)].
  induction H as [|S s m Hc [[I1 I2] I3] Hs]; [cbn; split; [lia|contradiction]|].
  rewrite top_snoc, app_length. cbn [length].
  assert (Hb : sq_epoch s <= N.of_nat (length S + 1) /\ sq_seq s <= N.of_nat (length S + 1)) by (subst s; unfold after; destruct (establishing m); cbn [sq_epoch sq_seq]; lia).
  split; [assumption|]. intros y Hy. apply in_app_or in Hy as [Hy|[<-|[]]]; [|assumption]. specialize (I3 y Hy). lia.
Qed.
Lemma top_bound S : chain S -> sq_epoch (top S) <= N.of_nat (length S) /\ sq_seq (top S) <= N.of_nat (length S).
Proof.
  intros H. destruct S as [|[s m] S _] using rev_ind; [cbn; lia|]. rewrite top_snoc. apply (chain_bound _ (s, m) H). apply in_or_app. cbn. auto.
Qed.

Definition known (S : list (seqno * pmsg)) (a : seqno) : Prop := a = Sq 0 0 \/ In a (map fst S).
Record ord (k : N) (S : list (seqno * pmsg)) (D : list pmsg) (l : link) : Prop := {
  o_chain : chain S;
  o_len : N.of_nat (length S) <= k;
  o_cur : h_up l = true -> h_cur l = next (top S);
  o_data : incl (h_data l) S;
  o_acks : forall a, In a (h_acks l) -> le a (h_seen l) /\ known S a;
  o_last : le (h_last l) (h_seen l) /\ known S (h_last l);
  o_there : h_there l = false -> S = [] /\ h_up l = false;
  o_abandoned : h_abandoned l = false;
  o_got : exists S1 S2, S = S1 ++ S2 /\ top S1 = h_seen l /\ sessions (map snd S1) D true;
  o_pend : exists Q, S = Q ++ h_pending l /\ (forall x, In x Q -> le (fst x) (h_seen l) \/ sq_epoch (fst x) < sq_epoch (top S));
  o_tail : forall x, In x (tl (h_pending l)) -> establishing (snd x) = false }.

Lemma le_small k S s : chain S -> N.of_nat (length S) <= k -> k + 1 < 2 ^ 31 -> (In s (map fst S) \/ s = top S) -> small s.
Proof.
  intros H1 H2 H3 H4. unfold small. change (2 ^ 31) with 2147483648 in *. change (2 ^ 62) with 4611686018427387904.
  assert (Hb : sq_epoch s <= N.of_nat (length S) /\ sq_seq s <= N.of_nat (length S)); [|lia].
  destruct H4 as [H4| ->]; [|now apply top_bound]. apply in_map_iff in H4 as (x & <- & Hx). now apply chain_bound.
Qed.
Lemma top_in S : S = [] \/ In (top S) (map fst S).
Proof. destruct S as [|[s m] S _] using rev_ind; [now left|]. right. rewrite top_snoc, map_app. apply in_or_app. cbn. auto. Qed.
Lemma top_small k S S1 S2 : chain S -> N.of_nat (length S) <= k -> k + 1 < 2 ^ 31 -> S = S1 ++ S2 -> small (top S1).
Proof.
  intros H1 H2 H3 ->. destruct (top_in S1) as [->|Hin]; [unfold small, top; cbn; lia|].
  eapply le_small; eauto. left. rewrite map_app. apply in_or_app. now left.
Qed.
Lemma known_small k S a : chain S -> N.of_nat (length S) <= k -> k + 1 < 2 ^ 31 -> known S a -> small a.
Proof. intros H1 H2 H3 [->|H]; [unfold small; cbn; lia|]. eapply le_small; eauto. Qed.
Lemma known_app S T a : known S a -> known (S ++ T) a.
Proof. intros [H|H]; [now left|right]. rewrite map_app. apply in_or_app. now left. Qed.

(* dropping acknowledged messages *)
Lemma drop_acked_split a p : exists p1, p = p1 ++ drop_acked a p /\ (forall x, In x p1 -> (cmp (fst x) a <= 0)%Z) /\
  match drop_acked a p with [] => True | x :: _ => (0 < cmp (fst x) a)%Z end.
Proof.
  induction p as [|[s m] p (p1 & E & H1 & H2)]; [exists []; cbn; repeat split; auto; contradiction|]. cbn. destruct (Z.ltb_spec 0 (cmp s a)) as [H|H].
  - exists []. cbn. repeat split; auto. contradiction.
  - exists ((s, m) :: p1). cbn. split; [now f_equal|]. split; [|assumption]. intros x [<-|Hx]; [assumption|auto].
Qed.
Lemma next_n_snoc n s : next_n n (next s) = next (next_n n s).
Proof. revert s. induction n as [|n IH]; intros s; cbn; [reflexivity|apply IH]. Qed.
Lemma top_app_nonest Q P : chain (Q ++ P) -> (forall x, In x P -> establishing (snd x) = false) ->
  top (Q ++ P) = Sq (sq_epoch (top Q)) (sq_seq (top Q) + N.of_nat (length P)).
Proof.
  induction P as [|[s m] P IH] using rev_ind; intros Hc Hn.
  - rewrite app_nil_r. cbn. rewrite N.add_0_r. now destruct (top Q).
  - rewrite app_assoc in *. pose proof (chain_mid _ _ _ _ Hc) as Hs. apply chain_app_l in Hc. rewrite top_snoc, Hs.
    rewrite IH; [|assumption|intros; apply Hn, in_or_app; now left]. unfold after.
    replace (establishing m) with false by (symmetry; apply (Hn (s, m)), in_or_app; cbn; auto). rewrite app_length. cbn. f_equal. lia.
Qed.
Lemma sessions_lost s d b : sessions s d b -> forall A, A <> [] -> sessions (s ++ A) d false.
Proof.
  intros H A. induction A as [|x A IH] using rev_ind; intros HA; [congruence|]. rewrite app_assoc.
  destruct A as [|y A]; [rewrite app_nil_r; eapply ses_lost; eauto|]. eapply ses_lost. apply IH. discriminate.
Qed.
(* where a message not yet seen is *)
Lemma unseen_in S S1 S2 x : chain S -> S = S1 ++ S2 -> In x S -> lt (top S1) (fst x) -> In x S2.
Proof.
  intros Hc -> Hin Hlt. apply in_app_or in Hin as [Hin|]; [|assumption]. exfalso.
  apply chain_app_l in Hc. pose proof (chain_le _ _ Hc Hin). apply (lt_irrefl (fst x)). eapply le_lt_trans; eauto.
Qed.
Lemma le_seen_acked S P Q a seen : S = Q ++ P -> le a seen -> chain S -> forall k, N.of_nat (length S) <= k -> k + 1 < 2 ^ 31 -> small a ->
  (forall x, In x Q -> le (fst x) seen \/ sq_epoch (fst x) < sq_epoch (top S)) ->
  exists Q', S = Q' ++ drop_acked a P /\ (forall x, In x Q' -> le (fst x) seen \/ sq_epoch (fst x) < sq_epoch (top S)).
Proof.
  intros -> Ha Hc k Hk Hk2 Hsm HQ. destruct (drop_acked_split a P) as (p1 & E & H1 & _). exists (Q ++ p1). split; [rewrite <- app_assoc, <- E; reflexivity|].
  intros x Hx. apply in_app_or in Hx as [Hx|Hx]; [auto|]. left. eapply le_trans; [|exact Ha]. apply not_lt.
  assert (Hin : In x (Q ++ P)) by (rewrite E; rewrite !in_app_iff; auto).
  specialize (H1 x Hx). rewrite <- cmp_pos; [lia| |assumption]. eapply le_small; eauto. left. now apply in_map.
Qed.
Lemma drop_tail a P : (forall x, In x (tl P) -> establishing (snd x) = false) -> forall x, In x (tl (drop_acked a P)) -> establishing (snd x) = false.
Proof.
  intros H x Hx. destruct (drop_acked_split a P) as (p1 & E & _). destruct p1 as [|y p1]; cbn in E; [rewrite <- E in Hx; auto|].
  apply H. rewrite E. cbn. apply in_or_app. right. destruct (drop_acked a P); [assumption|right; assumption].
Qed.
(* the numbers after a reconnection continue the old ones *)
Lemma resume k S D l : k + 1 < 2 ^ 31 -> ord k S D l ->
  (forall x, In x (drop_acked (h_seen l) (h_pending l)) -> establishing (snd x) = false) ->
  next_n (length (drop_acked (h_seen l) (h_pending l))) (next (h_seen l)) = next (top S).
Proof.
  intros Hk V Hne. destruct V as [Hc Hl _ _ _ _ _ _ (S1 & S2 & E1 & Et & Hses) (Q & EQ & HQ) _].
  destruct (le_seen_acked S (h_pending l) Q (h_seen l) (h_seen l) EQ (or_intror eq_refl) Hc k Hl Hk) as (Q' & EQ' & HQ'); auto.
  { rewrite <- Et. eapply top_small; eauto. }
  assert (Hts : small (top S)) by (eapply le_small; eauto).
  assert (Hseen : top Q' = h_seen l).
  { destruct (drop_acked_split (h_seen l) (h_pending l)) as (p1 & _ & _ & Hh).
    assert (Hle : le (h_seen l) (top S)) by (rewrite <- Et, E1; apply chain_top_le; now rewrite <- E1).
    assert (Hep : sq_epoch (top S) = sq_epoch (top Q')).
    { rewrite EQ', top_app_nonest; [reflexivity|now rewrite <- EQ'|assumption]. }
    assert (Hlow : le (top Q') (h_seen l)).
    { destruct (top_in Q') as [->|Hin]; [apply not_lt; unfold lt, top; cbn; lia|].
      apply in_map_iff in Hin as (x & Ex & Hx). destruct (HQ' x Hx) as [H|H]; rewrite Ex in H; [assumption|lia]. }
    assert (Hup : le (h_seen l) (top Q')).
    { destruct (drop_acked (h_seen l) (h_pending l)) as [|[s m] R] eqn:Ed; [now rewrite EQ', app_nil_r in Hle|].
      assert (Es : s = after (top Q') m) by (rewrite EQ' in Hc; eapply chain_mid; eauto).
      cbn in Hh. apply cmp_pos in Hh.
      2: { eapply le_small; eauto. left. rewrite EQ', map_app. cbn. apply in_or_app. cbn. auto. }
      2: { rewrite <- Et. eapply top_small; eauto. }
      unfold after in Es. replace (establishing m) with false in Es by (symmetry; apply (Hne (s, m)); cbn; auto). subst s.
      apply not_lt. unfold le, lt in *. cbn in Hh. destruct Hlow as [|X]; [lia|rewrite X; lia]. }
    destruct Hlow as [Hlt|]; [|assumption]. exfalso. apply (lt_irrefl (top Q')). eapply lt_trans; [exact Hlt|].
    destruct Hup as [|X]; [assumption|]. rewrite X in Hlt. now apply lt_irrefl in Hlt. }
  assert (Htop : top S = Sq (sq_epoch (h_seen l)) (sq_seq (h_seen l) + N.of_nat (length (drop_acked (h_seen l) (h_pending l))))).
  { transitivity (top (Q' ++ drop_acked (h_seen l) (h_pending l))); [now f_equal|]. rewrite top_app_nonest; [now rewrite Hseen|now rewrite <- EQ'|assumption]. }
  assert (Hb : sq_seq (h_seen l) + N.of_nat (length (drop_acked (h_seen l) (h_pending l))) < 2 ^ 62).
  { pose proof (top_bound S Hc) as [_ Hb]. rewrite Htop in Hb. cbn [sq_seq] in Hb. change (2 ^ 31) with 2147483648 in *. change (2 ^ 62) with 4611686018427387904. lia. }
  rewrite next_n_snoc, next_n_seq, Htop by assumption. reflexivity.
Qed.

Lemma ord_more k S D l : ord k S D l -> ord (k + 1) S D l.
Proof. intros [V1 V2 V3 V4 V5 V6 V7 V8 V9 V10 V11]. constructor; auto. lia. Qed.
Lemma ord_step k S D l o l' r : k + 2 < 2 ^ 31 -> ord k S D l -> (o = LConnect -> settled l) -> is_abandon o = false -> enclave_fails o = false ->
  lstep l o = Ret (l', r) ->
  exists S', map snd S' = map snd S ++ sent [r] /\ ord (k + 1) S' (D ++ got [r]) l'.
Proof.
  intros Hk V Hset Hna Hnf Es.
  assert (Quiet : sent [r] = [] -> got [r] = [] -> ord (k + 1) S D l' -> exists S', map snd S' = map snd S ++ sent [r] /\ ord (k + 1) S' (D ++ got [r]) l').
  { intros -> -> H. exists S. rewrite !app_nil_r. auto. }
  assert (Hk1 : k + 1 < 2 ^ 31) by lia.
  pose proof V as [V1 V2 V3 V4 V5 V6 V7 V8 V9 V10 V11]. injection Es as Es.
  assert (Hsn : small (h_seen l)) by (destruct V9 as (S1 & S2 & E & <- & _); eapply top_small; eauto).
  assert (Hts : small (top S)) by (eapply le_small; eauto).
  destruct o as [m| |ok| | | | |]; cbn [HostLink.lstep] in Es; try discriminate Hna.
  - unfold enqueue in Es. rewrite V8 in Es.
    assert (W : ord (k + 1) S D l) by now apply ord_more.
    destruct (h_there l) eqn:Et.
    + destruct W as [W1 W2 W3 W4 W5 W6 W7 W8 W9 W10 W11].
      destruct (_ <? buffer); injection Es as <- <-; apply Quiet; auto; constructor; cbn; auto; discriminate.
    + destruct (V7 eq_refl) as [-> Eu]. destruct V10 as (Q & EQ & HQ). symmetry in EQ. apply app_eq_nil in EQ as [-> EP].
      destruct W as [W1 W2 W3 W4 W5 W6 W7 W8 W9 W10 W11].
      destruct (_ <? buffer); injection Es as <- <-; apply Quiet; auto; (constructor; cbn; auto; try discriminate;
        [split; [apply not_lt; unfold lt; cbn; lia|now left]|exists []; cbn; split; [reflexivity|contradiction]|contradiction]).
  - (* send *)
    unfold send_one in Es. destruct (h_up l) eqn:Eu; cbn [negb] in Es; [|injection Es as <- <-; apply Quiet; auto using ord_more].
    destruct (h_queue l) as [|m q]; [injection Es as <- <-; apply Quiet; auto using ord_more|]. injection Es as <- <-.
    specialize (V3 eq_refl).
    assert (Hcur : small (next (top S))).
    { rewrite next_small by assumption. unfold small. cbn [sq_epoch sq_seq]. pose proof (top_bound S V1). change (2 ^ 31) with 2147483648 in *. change (2 ^ 62) with 4611686018427387904. lia. }
    set (s := if establishing m then next_epoch (h_cur l) else h_cur l).
    assert (Hs : s = after (top S) m).
    { unfold s, after. rewrite V3. destruct (establishing m).
      - rewrite next_epoch_small by assumption. now rewrite next_small.
      - now rewrite next_small. }
    exists (S ++ [(s, m)]). split; [cbn; now rewrite map_app|]. cbn [got flat_map r_got]. rewrite app_nil_r.
    constructor; cbn.
    + constructor; assumption.
    + rewrite app_length. cbn. lia.
    + intros _. now rewrite top_snoc.
    + destruct (h_srv l); [|intros x []]. apply incl_app; [now apply incl_appl|]. apply incl_appr, incl_refl.
    + intros a Ha. destruct (V5 a Ha). split; [assumption|now apply known_app].
    + destruct V6. split; [assumption|now apply known_app].
    + intros X. destruct (V7 X). congruence.
    + assumption.
    + destruct V9 as (S1 & S2 & -> & X1 & X2). exists S1, (S2 ++ [(s, m)]). rewrite <- app_assoc. auto.
    + rewrite top_snoc. destruct (establishing m) eqn:Ee.
      * exists S. split; [reflexivity|]. intros x Hx. right. apply (chain_le _ _ V1) in Hx. unfold after in Hs. rewrite Ee in Hs. rewrite Hs. cbn.
        unfold le, lt in Hx. destruct Hx as [?| ->]; lia.
      * destruct V10 as (Q & EQ & HQ). exists Q. split; [rewrite EQ at 1; now rewrite <- app_assoc|]. intros x Hx. rewrite Hs. unfold after. rewrite Ee. cbn. auto.
    + destruct (establishing m) eqn:Ee; [cbn; contradiction|]. intros x Hx. destruct (h_pending l) as [|y P]; [contradiction|].
      cbn in Hx, V11. apply in_app_or in Hx as [Hx|[<-|[]]]; auto.
  - (* deliver *)
    unfold deliver in Es. destruct ok; [|discriminate Hnf].
    destruct (h_srv l) eqn:Esv; cbn [negb] in Es; [|injection Es as <- <-; apply Quiet; auto using ord_more].
    destruct (h_data l) as [|[s m] d] eqn:Ed; [injection Es as <- <-; apply Quiet; auto using ord_more|].
    assert (HinS : In (s, m) S) by (apply V4; now left).
    assert (Hsm : small s) by (eapply le_small; eauto; left; apply (in_map fst) in HinS; exact HinS).
    assert (Hd : incl d S) by (intros x Hx; apply V4; now right).
    destruct (cmp s (h_seen l) <=? 0)%Z eqn:Ec.
    + injection Es as <- <-. apply Quiet; auto. apply ord_more. constructor; cbn; auto.
      intros a Ha. destruct (h_up l); [|contradiction]. apply in_app_or in Ha as [Ha|[<-|[]]]; [auto|]. split; [now right|].
      destruct V9 as (S1 & S2 & -> & <- & _). destruct (top_in S1) as [->|X]; [now left|]. right. rewrite map_app. apply in_or_app. now left.
    + destruct (follows s (h_seen l)) eqn:Ef; cbn [negb] in Es.
      2: { injection Es as <- <-. apply Quiet; auto. apply ord_more. constructor; cbn; auto. intros x []. }
      injection Es as <- <-. apply Z.leb_gt in Ec. apply (proj1 (cmp_pos _ _ Hsm Hsn)) in Ec.
      apply follows_small in Ef; [|assumption].
      destruct V9 as (S1 & S2 & E & Et & Hses). rewrite <- Et in Ec, Ef.
      pose proof (unseen_in S S1 S2 _ V1 E HinS Ec) as Hin2. apply in_split in Hin2 as (A & B & ->).
      assert (Hs : s = after (top (S1 ++ A)) m) by (rewrite E, app_assoc in V1; eapply chain_mid; eauto).
      exists S. split; [cbn; now rewrite app_nil_r|]. apply ord_more.
      assert (Up : forall a, le a (h_seen l) -> le a s) by (intros a Ha; left; rewrite <- Et in Ha; eapply le_lt_trans; eauto).
      constructor; cbn; auto.
      * intros a Ha. destruct (h_up l); [|contradiction]. apply in_app_or in Ha as [Ha|[<-|[]]]; [destruct (V5 a Ha); split; auto|]. split; [now right|].
        right. apply (in_map fst) in HinS. exact HinS.
      * destruct V6. auto.
      * exists ((S1 ++ A) ++ [(s, m)]), B. split; [now rewrite E, <- !app_assoc|]. split; [apply top_snoc|].
        rewrite !map_app. cbn [map snd].
        destruct (establishing m) eqn:Ee.
        -- destruct A as [|y A]; [rewrite app_nil_r; eapply ses_begin; eauto|].
           eapply ses_begin; [|assumption]. eapply sessions_lost; [exact Hses|discriminate].
        -- destruct A as [|y A _] using rev_ind; [cbn; rewrite app_nil_r; now apply ses_next|exfalso].
           destruct y as [s0 m0]. rewrite app_assoc, top_snoc in Hs. unfold after in Hs. rewrite Ee in Hs.
           assert (Hgt : lt (top S1) s0).
           { rewrite E in V1. apply (chain_gt S1 (s0, m0) _ V1). rewrite in_app_iff, in_app_iff. cbn. auto. }
           rewrite Hs in Ef. cbn in Ef. unfold lt in Hgt. lia.
      * destruct V10 as (Q & EQ & HQ). exists Q. split; [assumption|]. intros x Hx. destruct (HQ x Hx); auto.
  - (* ack *)
    unfold read_ack in Es. destruct (h_up l) eqn:Eu; cbn [negb] in Es; [|injection Es as <- <-; apply Quiet; auto using ord_more].
    destruct (h_acks l) as [|a ra] eqn:Ea; [injection Es as <- <-; apply Quiet; auto using ord_more|].
    assert (Ha : le a (h_seen l) /\ known S a) by (apply V5; now left). destruct Ha as [Ha Hka].
    unfold process_ack in Es. cbn [h_last] in Es. destruct (cmp a (h_last l) <? 0)%Z; injection Es as <- <-; apply Quiet; auto; apply ord_more; constructor; cbn; auto; try contradiction; try discriminate.
    + intros X. destruct (V7 X). auto.
    + intros x Hx. apply V5. now right.
    + destruct V10 as (Q & EQ & HQ). eapply le_seen_acked; eauto.
      eapply known_small; eauto.
    + apply drop_tail. assumption.
  - injection Es as <- <-. apply Quiet; auto. apply ord_more. constructor; cbn; auto; try discriminate; try contradiction.
    intros X. destruct (V7 X). auto.
  - injection Es as <- <-. apply Quiet; auto. apply ord_more. constructor; cbn; auto. intros x [].
  - (* connect *)
    unfold connect in Es. destruct (negb (h_there l) || h_up l)%bool eqn:Egd; [injection Es as <- <-; apply Quiet; auto using ord_more|].
    apply Bool.orb_false_iff in Egd as [Egd _]. apply Bool.negb_false_iff in Egd.
    unfold process_ack in Es. cbn [h_last h_seen] in Es.
    destruct (cmp (h_seen l) (h_last l) <? 0)%Z; injection Es as <- <-; apply Quiet; auto.
    + apply ord_more. constructor; cbn; auto; try discriminate; try contradiction. intros x [].
    + destruct (drop_acked_split (h_seen l) (h_pending l)) as (p1 & EP & HP1 & Hh).
      assert (Hne : forall x, In x (drop_acked (h_seen l) (h_pending l)) -> establishing (snd x) = false).
      { intros [s m] Hx. destruct (establishing m) eqn:Ee; [exfalso|assumption].
        destruct (drop_acked (h_seen l) (h_pending l)) as [|[s0 m0] R] eqn:ED; [contradiction|].
        assert (Hin0 : In (s0, m0) (h_pending l)) by (rewrite EP; apply in_or_app; cbn; auto).
        destruct Hx as [X|Hx].
        - injection X as -> ->. specialize (Hset eq_refl s m Hin0 Ee). cbn in Hh. lia.
        - assert (Hf : establishing (snd (s, m)) = false) by (apply (drop_tail (h_seen l) _ V11); rewrite ED; exact Hx). cbn in Hf. congruence. }
      assert (Hcur : next_n (length (drop_acked (h_seen l) (h_pending l))) (next (h_seen l)) = next (top S)) by (eapply resume; eauto).
      assert (Hs : incl (h_pending l) S) by (destruct V10 as (Q & -> & _); apply incl_appr, incl_refl).
      apply ord_more. constructor; cbn; auto; try discriminate; try contradiction.
      * intros x Hx. apply Hs. rewrite EP. apply in_or_app. now right.
      * split; [now right|]. destruct V9 as (S1 & S2 & -> & <- & _). destruct (top_in S1) as [->|X]; [now left|]. right. rewrite map_app. apply in_or_app. now left.
      * destruct V10 as (Q & EQ & HQ). eapply le_seen_acked; eauto. now right.
      * apply drop_tail. assumption.
Qed.
Lemma ord_start : ord 0 [] [] no_link.
Proof.
  constructor; cbn; try discriminate; try contradiction; auto.
  - constructor.
  - intros x [].
  - split; [now right|now left].
  - exists [], []. repeat split. constructor.
  - exists []. split; [reflexivity|contradiction].
Qed.
Lemma exec_snoc s h o s' rs : lexec s (h ++ [o]) = Ret (s', rs) ->
  exists s1 rs1 r, lexec s h = Ret (s1, rs1) /\ lstep s1 o = Ret (s', r) /\ rs = rs1 ++ [r].
Proof.
  rewrite exec_app. destruct (lexec s h) as [[s1 rs1]|]; [|discriminate]. cbn [exec]. destruct (lstep s1 o) as [[s2 r]|] eqn:Es; [|discriminate].
  intros H. injection H as <- <-. exists s1, rs1, r. auto.
Qed.
Lemma ord_reached h : forall l rs, N.of_nat (length h) + 1 < 2 ^ 31 -> orderly buffer h -> none_of is_abandon h -> none_of enclave_fails h ->
  lexec no_link h = Ret (l, rs) -> exists S, map snd S = sent rs /\ ord (N.of_nat (length h)) S (got rs) l.
Proof.
  induction h as [|o h IH] using rev_ind; intros l rs Hk Ho Ha Hf E.
  - injection E as <- <-. exists []. split; [reflexivity|exact ord_start].
  - apply exec_snoc in E as (l1 & rs1 & r & E1 & Es & ->). apply none_of_app in Ha as [Ha1 Ha2]. apply none_of_app in Hf as [Hf1 Hf2].
    apply none_of_cons in Ha2 as [Ha2 _]. apply none_of_cons in Hf2 as [Hf2 _].
    rewrite app_length in Hk |- *. cbn [length] in Hk |- *.
    destruct (IH l1 rs1) as (S & HS & V); auto; [lia| |].
    { intros h1 h2 l0 rs0 -> E0. eapply (Ho h1 (h2 ++ [o])); [now rewrite <- app_assoc|exact E0]. }
    destruct (ord_step (N.of_nat (length h)) S (got rs1) l1 o l r) as (S' & HS' & V'); auto; [lia| |].
    { intros ->. eapply (Ho h []); [reflexivity|exact E1]. }
    exists S'. rewrite sent_app, got_app, <- HS. split; [assumption|].
    replace (N.of_nat (length h + 1)) with (N.of_nat (length h) + 1) by lia. assumption.
Qed.
Lemma in_sessions h l rs : N.of_nat (length h) + 1 < 2 ^ 31 -> orderly buffer h -> none_of is_abandon h -> none_of enclave_fails h ->
  lexec no_link h = Ret (l, rs) -> exists b, sessions (sent rs) (got rs) b.
Proof.
  intros Hk Ho Ha Hf E. destruct (ord_reached h l rs Hk Ho Ha Hf E) as (S & <- & V). destruct V as [_ _ _ _ _ _ _ _ (S1 & S2 & -> & _ & Hs) _ _].
  rewrite map_app. destruct S2 as [|x S2]; [exists true; cbn; now rewrite app_nil_r|]. exists false. eapply sessions_lost; [exact Hs|discriminate].
Qed.

(* --- nothing is lost in orderly histories ------------------------------------------ *)
Lemma missing_drop k S D l : k + 1 < 2 ^ 31 -> ord k S D l -> missing l = map snd (drop_acked (h_seen l) (h_pending l)).
Proof.
  intros Hk V. destruct V as [Hc Hl _ _ _ _ _ _ (S1 & S2 & E1 & Et & _) (Q & EQ & _) _]. unfold missing. f_equal.
  assert (Hsn : small (h_seen l)) by (rewrite <- Et; eapply top_small; eauto).
  assert (Hsm : forall x, In x (h_pending l) -> small (fst x)).
  { intros x Hx. eapply le_small; eauto. left. apply in_map. rewrite EQ. apply in_or_app. now right. }
  assert (Hord : forall A x B, h_pending l = A ++ x :: B -> forall y, In y B -> lt (fst x) (fst y)).
  { intros A [s m] B EA y Hy. rewrite EQ, EA in Hc. change ((s, m) :: B) with ([(s, m)] ++ B) in Hc. rewrite !app_assoc in Hc.
    pose proof (chain_gt _ y _ Hc Hy) as X. now rewrite top_snoc in X. }
  clear - Hsn Hsm Hord. induction (h_pending l) as [|[s m] p IH]; [reflexivity|]. cbn.
  destruct (Z.ltb_spec 0 (cmp s (h_seen l))) as [H|H].
  - f_equal. assert (Ha : forall y, In y p -> lt s (fst y)) by (apply (Hord [] (s, m) p eq_refl)).
    apply cmp_pos in H; [|apply (Hsm (s, m)); now left|assumption].
    clear - Ha H Hsm Hsn. induction p as [|y p IH]; [reflexivity|]. cbn.
    replace (0 <? cmp (fst y) (h_seen l))%Z with true.
    + f_equal. apply IH; [intros x [<-|Hx]; apply Hsm; cbn; auto|intros x Hx; apply Ha; now right].
    + symmetry. apply Z.ltb_lt, cmp_pos; [apply Hsm; cbn; auto|assumption|]. eapply lt_trans; [exact H|]. apply Ha. now left.
  - apply IH; [intros x Hx; apply Hsm; now right|]. intros A x B EA. apply (Hord ((s, m) :: A)). now rewrite EA.
Qed.
Lemma kept k S D l : k + 1 < 2 ^ 31 -> ord k S D l ->
  exists S1 A, S = S1 ++ A ++ drop_acked (h_seen l) (h_pending l) /\ top S1 = h_seen l /\ sessions (map snd S1) D true /\
    (A = [] \/ exists x U, drop_acked (h_seen l) (h_pending l) = x :: U /\ establishing (snd x) = true).
Proof.
  intros Hk V. pose proof V as [Hc Hl _ _ _ _ _ _ (S1 & S2 & E1 & Et & Hses) (Q & EQ & HQ) Htl].
  assert (Hsn : small (h_seen l)) by (rewrite <- Et; eapply top_small; eauto).
  destruct (drop_acked_split (h_seen l) (h_pending l)) as (p1 & EP & HP1 & Hh).
  set (R := drop_acked (h_seen l) (h_pending l)) in *.
  assert (HR : forall x, In x R -> lt (h_seen l) (fst x)).
  { intros x Hx. destruct R as [|[s m] R'] eqn:ER; [contradiction|]. cbn in Hh.
    assert (Hin : In (s, m) S) by (rewrite EQ, EP, !in_app_iff; cbn; auto).
    apply cmp_pos in Hh; [|eapply le_small; eauto; left; apply (in_map fst) in Hin; exact Hin|assumption].
    destruct Hx as [<-|Hx]; [assumption|]. eapply lt_trans; [exact Hh|].
    rewrite EQ, EP in Hc. change ((s, m) :: R') with ([(s, m)] ++ R') in Hc. rewrite !app_assoc in Hc.
    pose proof (chain_gt _ x _ Hc Hx) as X. now rewrite top_snoc in X. }
  (* R is the end of what follows S1 *)
  assert (Hsplit : exists A, S2 = A ++ R).
  { assert (E : (Q ++ p1) ++ R = S1 ++ S2) by (rewrite <- E1, EQ, EP at 1; now rewrite <- app_assoc).
    apply app_eq_app in E as (X & [[E2 E3]|[E2 E3]]); [exists X; assumption|].
    destruct X as [|x X]; [exists []; cbn in *; now rewrite E3|exfalso].
    assert (Hx : In x R) by (rewrite E3; now left). apply HR in Hx. rewrite <- Et in Hx.
    assert (Hle : le (fst x) (top S1)) by (apply chain_le; [rewrite E1 in Hc; now apply chain_app_l in Hc|rewrite E2; apply in_or_app; cbn; auto]).
    apply (lt_irrefl (fst x)). eapply le_lt_trans; eauto. }
  destruct Hsplit as (A & ->). exists S1, A. repeat split; auto.
  destruct A as [|[s m] A _] using rev_ind; [now left|right].
  (* the last of A is not yet seen, so that it was given up: its session is over *)
  assert (EQA : Q ++ p1 = S1 ++ A ++ [(s, m)]).
  { apply (app_inv_tail R). rewrite <- !app_assoc. cbn. rewrite <- EP, <- EQ, E1. now rewrite <- !app_assoc. }
  assert (Hgt : lt (h_seen l) s).
  { rewrite <- Et. rewrite E1 in Hc. apply (chain_gt S1 (s, m) _ Hc). rewrite !in_app_iff. cbn. auto. }
  destruct p1 as [|[s1 m1] p1 _] using rev_ind.
  2: { exfalso. rewrite !app_assoc in EQA. apply app_inj_tail in EQA as [_ X]. injection X as -> ->.
       assert (Hin : In (s, m) S) by (rewrite E1, !in_app_iff; cbn; auto).
       specialize (HP1 (s, m) ltac:(apply in_or_app; cbn; auto)). cbn in HP1. apply cmp_pos in Hgt; [lia|eapply le_small; eauto; left; apply (in_map fst) in Hin; exact Hin|assumption]. }
  cbn in EP. rewrite app_nil_r in EQA.
  assert (HinQ : In (s, m) Q) by (rewrite EQA, !in_app_iff; cbn; auto).
  destruct (HQ _ HinQ) as [X|X]; [exfalso; cbn in X; apply (lt_irrefl s); eapply le_lt_trans; eauto|]. cbn in X.
  assert (HtQ : top Q = s) by (rewrite EQA, app_assoc; apply top_snoc).
  destruct R as [|[s2 m2] R']; [exfalso; rewrite EQ, EP, app_nil_r, HtQ in X; lia|].
  exists (s2, m2), R'. split; [reflexivity|]. cbn. destruct (establishing m2) eqn:E2; [reflexivity|exfalso].
  rewrite EQ, EP, top_app_nonest, HtQ in X; [cbn in X; lia|rewrite <- EP, <- EQ; assumption|].
  intros x [<-|Hx]; [assumption|]. apply Htl. rewrite EP. assumption.
Qed.
Lemma last_cons {A} (x : A) t d : last (x :: t) d = last t x.
Proof. revert x d. induction t as [|y t IH]; intros x d; [reflexivity|]. change (last (y :: t) d = last (y :: t) x). now rewrite !IH. Qed.
(* reading the messages sent again delivers them all *)
Lemma deliver_all P : forall l, h_srv l = true -> h_data l = P ->
  (forall A x B, P = A ++ x :: B -> small (fst x) /\ lt (last (map fst A) (h_seen l)) (fst x) /\ follows (fst x) (last (map fst A) (h_seen l)) = true) ->
  small (h_seen l) ->
  exists l' rs, lexec l (repeat (LDeliver true) (length P)) = Ret (l', rs) /\ got rs = map snd P /\ h_pending l' = h_pending l /\ h_seen l' = last (map fst P) (h_seen l).
Proof.
  induction P as [|[s m] P IH]; intros l Hs Hd Hp Hsn; cbn [length repeat exec].
  - exists l, []. auto.
  - destruct (Hp [] (s, m) P eq_refl) as (Hsm & Hlt & Hf). cbn in Hsm, Hlt, Hf.
    cbn [HostLink.lstep]. unfold deliver. rewrite Hs, Hd. cbn [negb].
    replace (cmp s (h_seen l) <=? 0)%Z with false by (symmetry; apply Z.leb_gt, cmp_pos; assumption). rewrite Hf. cbn [negb].
    match goal with |- context [lexec ?x _] => set (l1 := x) end.
    destruct (IH l1) as (l2 & rs & E & Hg & Hpe & Hse); auto.
    + intros A x B E. destruct (Hp ((s, m) :: A) x B) as (X1 & X2 & X3); [now rewrite E|]. unfold l1. cbn [h_seen].
      cbn [map fst] in X2, X3. rewrite last_cons in X2, X3. auto.
    + rewrite E. eexists _, _. split; [reflexivity|]. split; [change (m :: got rs = m :: map snd P); now rewrite Hg|]. split; [exact Hpe|]. rewrite Hse. unfold l1. cbn [h_seen].
      cbn [map fst]. now rewrite last_cons.
Qed.
Lemma last_nonempty {A} (l : list A) a b : l <> [] -> last l a = last l b.
Proof. induction l as [|x l IH]; intros H; [congruence|]. destruct l; [reflexivity|]. apply IH. discriminate. Qed.
Lemma catch_up k S D l : k + 2 < 2 ^ 31 -> ord k S D l ->
  exists l' rs, lexec l (LClientDrop :: LConnect :: repeat (LDeliver true) (length (missing l))) = Ret (l', rs) /\ got rs = missing l /\ missing l' = [].
Proof.
  intros Hk V. assert (Hk1 : k + 1 < 2 ^ 31) by lia. rewrite (missing_drop k S D l Hk1 V).
  pose proof V as [Hc Hl _ _ _ Hla Hth _ (S1' & S2' & E1' & Et' & _) _ _].
  assert (Hsn : small (h_seen l)) by (rewrite <- Et'; eapply top_small; eauto).
  destruct (kept k S D l Hk1 V) as (S1 & A & ES & Et & Hses & HA).
  set (R := drop_acked (h_seen l) (h_pending l)) in *. rewrite map_length.
  change (LClientDrop :: LConnect :: ?x) with ([LClientDrop; LConnect] ++ x). rewrite exec_app.
  destruct (h_there l) eqn:Eth.
  2: { destruct (Hth eq_refl) as [-> Eu]. symmetry in ES. apply app_eq_nil in ES as [_ ES]. apply app_eq_nil in ES as [_ ER].
       assert (EP : h_pending l = []) by (destruct V as [_ _ _ _ _ _ _ _ _ (Q & EQ & _) _]; symmetry in EQ; apply app_eq_nil in EQ; tauto).
       rewrite ER. cbn. unfold connect. cbn. rewrite Eth. cbn. eexists _, _. split; [reflexivity|]. split; [reflexivity|]. unfold missing. cbn. now rewrite EP. }
  cbn [exec HostLink.lstep client_drop]. unfold connect. cbn [h_there h_up negb orb h_last h_seen h_pending h_abandoned h_queue h_cur client_drop].
  rewrite Eth. cbn [negb orb]. unfold process_ack. cbn [h_last h_seen h_pending].
  replace (cmp (h_seen l) (h_last l) <? 0)%Z with false.
  2: { symmetry. apply Z.ltb_ge. destruct Hla as [Hla Hkn]. assert (Hsl : small (h_last l)) by (eapply known_small; eauto).
       destruct (Z.lt_ge_cases (cmp (h_seen l) (h_last l)) 0) as [X|X]; [|assumption]. apply cmp_neg in X; auto. exfalso. apply (lt_irrefl (h_last l)). eapply le_lt_trans; eauto. }
  cbn [h_abandoned h_queue h_pending h_last h_seen h_there h_up h_cur h_srv h_data h_acks]. fold R.
  match goal with |- context [lexec ?x (repeat _ _)] => set (l1 := x) end.
  destruct (deliver_all R l1) as (l2 & rs & E & Hg & Hpe & Hse); auto.
  - intros B [s m] C ER. cbn [fst]. unfold l1. cbn [h_seen].
    assert (ES' : S = (S1 ++ A ++ B) ++ (s, m) :: C) by (rewrite ES, ER; now rewrite <- !app_assoc).
    assert (Hs : s = after (top (S1 ++ A ++ B)) m) by (rewrite ES' in Hc; eapply chain_mid; eauto).
    assert (Hsm : small s) by (eapply le_small; eauto; left; rewrite ES', map_app; apply in_or_app; cbn; auto).
    assert (Hin : In (s, m) ((A ++ B) ++ (s, m) :: C)) by (apply in_or_app; cbn; auto).
    assert (Hgt : lt (h_seen l) s).
    { rewrite <- Et. rewrite ES, ER in Hc. apply (chain_gt S1 (s, m) _ Hc). rewrite !in_app_iff. cbn. auto. }
    split; [assumption|].
    destruct B as [|[s0 m0] B _] using rev_ind.
    + cbn. split; [assumption|]. apply follows_small; [assumption|]. rewrite app_nil_r in Hs.
      destruct HA as [->|(x & U & EU & Hx)].
      * rewrite app_nil_r, Et in Hs. rewrite Hs. unfold after. destruct (establishing m); cbn; lia.
      * rewrite ER in EU. injection EU as <- _. cbn in Hx. unfold after in Hs. rewrite Hx in Hs. rewrite Hs in Hgt |- *. unfold lt in Hgt. cbn in *. lia.
    + rewrite map_app. cbn [map fst]. rewrite last_last. rewrite !app_assoc, top_snoc in Hs. rewrite Hs. split; [apply after_lt|].
      apply follows_small; [eapply le_small; eauto; left; rewrite ES', !map_app; cbn; rewrite !in_app_iff; cbn; auto 10|].
      unfold after. destruct (establishing m); cbn; lia.
  - rewrite E. eexists _, _. split; [reflexivity|]. split; [cbn; exact Hg|].
    unfold missing. rewrite Hpe, Hse. unfold l1. cbn [h_pending h_seen].
    destruct R as [|x R'] eqn:ER; [reflexivity|].
    (* everything is at most the last *)
    assert (Htop : last (map fst (x :: R')) (h_seen l) = top S).
    { unfold top. rewrite ES, !map_app. rewrite (last_nonempty _ (h_seen l) (Sq 0 0)) by discriminate. symmetry.
      assert (G : forall (a b : list seqno) d, b <> [] -> last (a ++ b) d = last b d).
      { clear. induction a as [|y a IH]; intros b d Hb; [reflexivity|]. cbn [app]. rewrite <- (IH b d Hb). destruct (a ++ b) eqn:Ea; [apply app_eq_nil in Ea; tauto|reflexivity]. }
      rewrite G by (destruct (map fst A); discriminate). apply G. discriminate. }
    rewrite Htop. cut (filter (fun y : seqno * pmsg => (0 <? cmp (fst y) (top S))%Z) (x :: R') = []); [now intros ->|].
    assert (Hall : forall y, In y (x :: R') -> (0 <? cmp (fst y) (top S))%Z = false).
    { intros y Hy. assert (HyS : In y S) by (rewrite ES, !in_app_iff; auto). apply Z.ltb_ge.
      destruct (Z.lt_ge_cases 0 (cmp (fst y) (top S))) as [X|X]; [|assumption]. exfalso.
      apply cmp_pos in X; [|eapply le_small; eauto; left; now apply in_map|eapply le_small; eauto].
      apply (lt_irrefl (fst y)). eapply le_lt_trans; [exact (chain_le S y Hc HyS)|assumption]. }
    clear - Hall. induction (x :: R') as [|y t IH]; [reflexivity|]. cbn. rewrite (Hall y (or_introl eq_refl)). apply IH. intros; apply Hall. now right.
Qed.
Lemma nothing_lost h l rs : N.of_nat (length h) + 2 < 2 ^ 31 -> orderly buffer h -> none_of is_abandon h -> none_of enclave_fails h ->
  lexec no_link h = Ret (l, rs) ->
  (exists s1 a, sent rs = s1 ++ a ++ missing l /\ sessions s1 (got rs) true /\
     (a = [] \/ exists m u, missing l = m :: u /\ establishing m = true)) /\
  (exists l' rs', lexec l (LClientDrop :: LConnect :: repeat (LDeliver true) (length (missing l))) = Ret (l', rs') /\ got rs' = missing l /\ missing l' = []).
Proof.
  intros Hk Ho Ha Hf E. destruct (ord_reached h l rs ltac:(lia) Ho Ha Hf E) as (S & HS & V). split; [|eapply catch_up; eauto].
  destruct (kept (N.of_nat (length h)) S (got rs) l ltac:(lia) V) as (S1 & A & ES & _ & Hses & HA).
  rewrite (missing_drop (N.of_nat (length h)) S (got rs) l ltac:(lia) V). exists (map snd S1), (map snd A). rewrite <- HS. split; [rewrite ES at 1; now rewrite !map_app|]. split; [assumption|].
  destruct HA as [->|(x & U & EU & Hx)]; [now left|right]. rewrite EU. cbn. eauto.
Qed.

(* --- what was accepted is sent, in order ---------------------------------------------- *)
Lemma queue_step l o l' r : (h_there l = false -> h_queue l = []) -> lstep l o = Ret (l', r) ->
  (h_there l' = false -> h_queue l' = []) /\
  (replaces o = false -> h_queue l ++ accepted [o] [r] = sent [r] ++ h_queue l').
Proof.
  intros V Es. injection Es as Es. destruct o as [m| |ok| | | | |]; cbn [HostLink.lstep replaces] in *.
  - unfold enqueue in Es. destruct (establishing m || resets m)%bool eqn:Em.
    + split; [|discriminate]. destruct (h_there l); [|destruct (h_abandoned l); [destruct (resets m); [|destruct (negb (establishing m))]|]];
        try (destruct (_ <? buffer)); injection Es as <- <-; cbn; auto; discriminate.
    + apply Bool.orb_false_iff in Em as [Ee Er]. rewrite Ee, Er in Es. cbn [negb] in Es. destruct (h_there l) eqn:Et.
      * destruct (_ <? buffer); injection Es as <- <-; cbn; (split; [discriminate|intros _]); rewrite ?app_nil_r; reflexivity.
      * rewrite (V eq_refl). destruct (h_abandoned l); [injection Es as <- <-; cbn; rewrite (V eq_refl); auto|].
        cbn [h_queue length] in Es. destruct (_ <? buffer); injection Es as <- <-; cbn; split; auto; discriminate.
  - unfold send_one in Es. destruct (negb (h_up l)); [injection Es as <- <-; cbn; rewrite app_nil_r; auto|].
    destruct (h_queue l) as [|m q] eqn:Eq; injection Es as <- <-; cbn; rewrite ?Eq, ?app_nil_r; auto.
    split; [|reflexivity]. intros X. apply V in X. discriminate.
  - unfold deliver in Es. destruct (negb (h_srv l)); [injection Es as <- <-; cbn; rewrite app_nil_r; auto|].
    destruct (h_data l) as [|[s m] d]; [injection Es as <- <-; cbn; rewrite app_nil_r; auto|].
    destruct (_ <=? 0)%Z; [|destruct (negb _)]; injection Es as <- <-; cbn; rewrite app_nil_r; auto.
  - unfold read_ack in Es. destruct (negb (h_up l)); [injection Es as <- <-; cbn; rewrite app_nil_r; auto|].
    destruct (h_acks l) as [|a ra]; [injection Es as <- <-; cbn; rewrite app_nil_r; auto|].
    unfold process_ack in Es. destruct (_ <? 0)%Z; injection Es as <- <-; cbn; rewrite app_nil_r; auto.
  - injection Es as <- <-. cbn. rewrite app_nil_r. auto.
  - injection Es as <- <-. cbn. rewrite app_nil_r. auto.
  - unfold connect in Es. destruct (negb (h_there l) || h_up l)%bool eqn:Eg; [injection Es as <- <-; cbn; rewrite app_nil_r; auto|].
    unfold process_ack in Es. destruct (_ <? 0)%Z; injection Es as <- <-; cbn; rewrite app_nil_r; split; auto; discriminate.
  - split; [|discriminate]. unfold abandon in Es. destruct (negb (h_there l) || h_up l)%bool; injection Es as <- <-; cbn; auto.
Qed.
Lemma accepted_cons o h r rs : accepted (o :: h) (r :: rs) = accepted [o] [r] ++ accepted h rs.
Proof. destruct o; cbn; rewrite ?app_nil_r; reflexivity. Qed.
Lemma queue_exec h : forall l l' rs, (h_there l = false -> h_queue l = []) -> lexec l h = Ret (l', rs) ->
  (h_there l' = false -> h_queue l' = []) /\ (none_of replaces h -> h_queue l ++ accepted h rs = sent rs ++ h_queue l').
Proof.
  induction h as [|o h IH]; intros l l' rs V E; cbn [exec] in E.
  - injection E as <- <-. split; [assumption|]. intros _. cbn. now rewrite app_nil_r.
  - destruct (lstep l o) as [[l1 r]|] eqn:Es; [|discriminate]. destruct (lexec l1 h) as [[l2 rs2]|] eqn:Eh; [|discriminate]. injection E as <- <-.
    destruct (queue_step l o l1 r V Es) as [V1 Q1]. destruct (IH l1 l2 rs2 V1 Eh) as [V2 Q2]. split; [assumption|].
    intros Hn. apply none_of_cons in Hn as [Hn1 Hn2]. rewrite accepted_cons. change (r :: rs2) with ([r] ++ rs2). rewrite sent_app, app_assoc, Q1, <- !app_assoc, Q2; auto.
Qed.
Lemma accepted_in_order h1 h2 l1 rs1 l2 rs2 : lexec no_link h1 = Ret (l1, rs1) -> lexec l1 h2 = Ret (l2, rs2) -> none_of replaces h2 ->
  h_queue l1 ++ accepted h2 rs2 = sent rs2 ++ h_queue l2.
Proof.
  intros E1 E2 Hn. destruct (queue_exec h1 no_link l1 rs1) as [V _]; auto. destruct (queue_exec h2 l1 l2 rs2 V E2) as [_ Q]. auto.
Qed.
(* a message not accepted is reported *)
Lemma refused_reported l m l' r : lstep l (LQueue m) = Ret (l', r) -> resets m = false -> r_accepted r = negb (r_reset r).
Proof.
  intros Es Hm. injection Es as Es. unfold enqueue in Es. rewrite Hm in Es.
  destruct (h_there l); [|destruct (h_abandoned l); [destruct (negb (establishing m))|]]; try (destruct (_ <? buffer)); injection Es as <- <-; reflexivity.
Qed.

(* --- a message that is nowhere is not delivered ------------------------------------------- *)
Definition nowhere (m : pmsg) (l : link) : Prop := ~ In m (h_queue l) /\ ~ In m (map snd (h_pending l)) /\ ~ In m (map snd (h_data l)).
Definition requeues (m : pmsg) (o : lop) : Prop := o = LQueue m.
Lemma drop_acked_in a p x : In x (map snd (drop_acked a p)) -> In x (map snd p).
Proof. intros H. eapply sub_in; [apply sub_map, drop_acked_sub|exact H]. Qed.
Lemma nowhere_step m l o l' r : nowhere m l -> o <> LQueue m -> lstep l o = Ret (l', r) -> nowhere m l' /\ r_got r <> Some m.
Proof.
  intros (V1 & V2 & V3) Ho Es. injection Es as Es. unfold nowhere. destruct o as [m'| |ok| | | | |]; cbn [HostLink.lstep] in *.
  - assert (Hm : m' <> m) by congruence. unfold enqueue in Es.
    assert (Hq : forall q, (q = [] \/ q = h_queue l) -> ~ In m (q ++ [m'])) by (intros q [->| ->] X; apply in_app_or in X as [X|[X|[]]]; auto).
    destruct (h_there l); [|destruct (h_abandoned l); [destruct (resets m'); [|destruct (negb (establishing m'))]|]];
      try (destruct (_ <? buffer)); injection Es as <- <-; cbn [h_queue h_pending h_data r_got still]; (split; [|discriminate]); repeat split; auto;
      try (apply Hq; destruct (_ || _)%bool; cbn; auto); try (destruct (_ || _)%bool; cbn; auto).
  - unfold send_one in Es. destruct (negb (h_up l)); [injection Es as <- <-; split; [auto|discriminate]|].
    destruct (h_queue l) as [|m' q] eqn:Eq; injection Es as <- <-; cbn; (split; [|discriminate]); rewrite ?Eq; repeat split; auto.
    + intros X. apply V1. now right.
    + rewrite map_app. intros X. apply in_app_or in X as [X|[X|[]]]; [destruct (establishing m'); auto|]. apply V1. left. exact X.
    + destruct (h_srv l); [|auto]. rewrite map_app. intros X. apply in_app_or in X as [X|[X|[]]]; auto. apply V1. left. exact X.
  - unfold deliver in Es. destruct (negb (h_srv l)); [injection Es as <- <-; split; [auto|discriminate]|].
    destruct (h_data l) as [|[s m'] d] eqn:Ed; [injection Es as <- <-; rewrite Ed; split; [auto|discriminate]|].
    assert (Hd : ~ In m (map snd d)) by (intros X; apply V3; now right).
    destruct (_ <=? 0)%Z; [|destruct (negb _)]; injection Es as <- <-; cbn; repeat split; auto; try discriminate.
    destruct ok; [|discriminate]. intros X. injection X as X. apply V3. now left.
  - unfold read_ack in Es. destruct (negb (h_up l)); [injection Es as <- <-; split; [auto|discriminate]|].
    destruct (h_acks l) as [|a ra]; [injection Es as <- <-; split; [auto|discriminate]|].
    unfold process_ack in Es. destruct (_ <? 0)%Z; injection Es as <- <-; cbn; (split; [|discriminate]); repeat split; auto.
    intros X. apply V2. eapply drop_acked_in; eauto.
  - injection Es as <- <-. cbn. split; [auto|discriminate].
  - injection Es as <- <-. cbn. split; [auto|discriminate].
  - unfold connect in Es. destruct (_ || _)%bool; [injection Es as <- <-; split; [auto|discriminate]|].
    unfold process_ack in Es. destruct (_ <? 0)%Z; injection Es as <- <-; cbn; (split; [|discriminate]); repeat split; auto; intros X; apply V2; eapply drop_acked_in; eauto.
  - unfold abandon in Es. destruct (_ || _)%bool; injection Es as <- <-; cbn; (split; [|discriminate]); auto.
Qed.
Lemma nowhere_exec m h : forall l l' rs, nowhere m l -> ~ In (LQueue m) h -> lexec l h = Ret (l', rs) -> ~ In m (got rs).
Proof.
  induction h as [|o h IH]; intros l l' rs V Hn E; cbn [exec] in E.
  - injection E as <- <-. auto.
  - destruct (lstep l o) as [[l1 r]|] eqn:Es; [|discriminate]. destruct (lexec l1 h) as [[l2 rs2]|] eqn:Eh; [|discriminate]. injection E as <- <-.
    destruct (nowhere_step m l o l1 r V) as [V1 Hg]; auto; [intros ->; apply Hn; now left|].
    change (r :: rs2) with ([r] ++ rs2). rewrite got_app, in_app_iff. intros [X|X].
    + cbn in X. rewrite app_nil_r in X. destruct (r_got r); [destruct X as [->|[]]; congruence|contradiction].
    + eapply IH; eauto. intros X'. apply Hn. now right.
Qed.
End P.

(* what the session property says of the last message *)
Lemma sessions_sub s d b : sessions s d b -> forall m, In m d -> In m s.
Proof. induction 1; intros x Hx; [contradiction| | |apply in_or_app; left; auto]; apply in_app_or in Hx as [Hx|Hx]; apply in_or_app; auto. Qed.
Lemma sessions_next s d m b : sessions (s ++ [m]) (d ++ [m]) b -> establishing m = false -> ~ In m s -> sessions s d true.
Proof.
  intros H Hm Hn. inversion H as [E1 E2|s0 d0 m0 H0 E1 E2|s0 d0 b0 m0 H0 He E1 E2|s0 d0 b0 m0 H0 E1 E2].
  - destruct s; discriminate.
  - apply app_inj_tail in E1 as [-> ->]. apply app_inj_tail in E2 as [-> _]. assumption.
  - apply app_inj_tail in E1 as [-> ->]. congruence.
  - apply app_inj_tail in E1 as [-> ->]. exfalso. apply Hn. eapply sessions_sub; [exact H0|]. subst. apply in_or_app. cbn. auto.
Qed.
Lemma sessions_true s d m m' : sessions (s ++ [m]) (d ++ [m']) true -> m = m'.
Proof.
  intros H. inversion H as [E1 E2|s0 d0 m0 H0 E1 E2|s0 d0 b0 m0 H0 He E1 E2|].
  - destruct s; discriminate.
  - apply app_inj_tail in E1 as [_ ->]. now apply app_inj_tail in E2 as [_ ->].
  - apply app_inj_tail in E1 as [_ ->]. now apply app_inj_tail in E2 as [_ ->].
Qed.
