From Verif Require Import LocksSpec LocksProofs.
From Coq Require Import Lia Wellfounded Arith.

Lemma lock_eqb_eq a b : lock_eqb a b = true <-> a = b.
Proof.
  split.
  - destruct a, b; cbn; intros H; try discriminate; try reflexivity; apply N.eqb_eq in H; congruence.
  - intros <-. destruct a; cbn; auto using N.eqb_refl.
Qed.

(* the locks of thread [i], the last one taken first *)
Definition mine (i : nat) (h : list (lock * nat)) : list lock := map fst (filter (fun x => Nat.eqb (snd x) i) h).

Lemma mine_in i h l : In l (mine i h) <-> In (l, i) h.
Proof.
  unfold mine. rewrite in_map_iff. split.
  - intros [[x j] [<- H]]. apply filter_In in H as [H E]. apply Nat.eqb_eq in E. cbn in *. congruence.
  - intros H. exists (l, i). split; [reflexivity|]. apply filter_In. split; [exact H|]. cbn. apply Nat.eqb_refl.
Qed.
Lemma mine_cons_same i l h : mine i ((l, i) :: h) = l :: mine i h.
Proof. unfold mine. cbn. rewrite Nat.eqb_refl. reflexivity. Qed.
Lemma mine_cons_other i j l h : j <> i -> mine j ((l, i) :: h) = mine j h.
Proof. intros H. unfold mine. cbn. destruct (Nat.eqb_spec i j); [congruence|reflexivity]. Qed.
Lemma is_held_in l h : is_held l h = true <-> exists j, In (l, j) h.
Proof.
  unfold is_held. rewrite existsb_exists. split.
  - intros [[x j] [H E]]. apply lock_eqb_eq in E. cbn in E. subst. exists j. exact H.
  - intros [j H]. exists (l, j). split; [exact H|]. apply lock_eqb_eq. reflexivity.
Qed.

Lemma release_not_in l i h : ~ In l (map fst h) -> release l i h = h.
Proof.
  induction h as [|[x j] h IH]; [reflexivity|]. intros H. unfold release in *. cbn [filter map fst snd] in *.
  destruct (lock_eqb l x) eqn:E; [apply lock_eqb_eq in E; exfalso; apply H; left; congruence|].
  cbn [negb andb]. f_equal. apply IH. intros Hi. apply H. right. exact Hi.
Qed.
(* giving back the last lock one has taken *)
Lemma release_mine i l h t : NoDup (map fst h) -> mine i h = l :: t ->
  mine i (release l i h) = t /\ (forall j, j <> i -> mine j (release l i h) = mine j h) /\ incl (release l i h) h.
Proof.
  intros Hn Hm. revert Hn t Hm. induction h as [|[x j] h IH]; intros Hn t Hm; [discriminate|].
  cbn [map fst] in Hn. inversion Hn as [|? ? Hx Hn']; subst.
  destruct (Nat.eqb_spec j i) as [->|Hj].
  - rewrite mine_cons_same in Hm. injection Hm as <- Ht.
    assert (E : release x i ((x, i) :: h) = h).
    { unfold release. cbn [filter fst snd]. replace (lock_eqb x x) with true by (symmetry; apply lock_eqb_eq; reflexivity).
      rewrite Nat.eqb_refl. cbn [negb andb]. exact (release_not_in x i h Hx). }
    rewrite E. split; [exact Ht|]. split; [|intros y Hy; right; exact Hy].
    intros j Hj. symmetry. apply mine_cons_other, Hj.
  - rewrite (mine_cons_other j i) in Hm by congruence.
    assert (E : release l i ((x, j) :: h) = (x, j) :: release l i h).
    { unfold release. cbn [filter fst snd]. destruct (Nat.eqb_spec i j); [congruence|]. rewrite andb_false_r. reflexivity. }
    rewrite E. destruct (IH Hn' t Hm) as (A & B & D). split; [|split].
    + rewrite mine_cons_other by congruence. exact A.
    + intros j' Hj'. destruct (Nat.eqb_spec j' j) as [->|Hne].
      * rewrite !mine_cons_same. f_equal. apply B. exact Hj'.
      * rewrite !mine_cons_other by congruence. apply B. exact Hj'.
    + intros y [<-|Hy]; [left; reflexivity|right; apply D, Hy].
Qed.

(* [set_thread] *)
Lemma set_thread_len i p l : (i < length l)%nat -> length (set_thread i p l) = length l.
Proof. intros H. unfold set_thread. rewrite app_length. cbn [length]. rewrite firstn_length, skipn_length. lia. Qed.
Lemma set_thread_same i p l : (i < length l)%nat -> nth_error (set_thread i p l) i = Some p.
Proof.
  intros H. unfold set_thread. rewrite nth_error_app2; rewrite firstn_length_le by lia; [|lia].
  rewrite Nat.sub_diag. reflexivity.
Qed.
Lemma set_thread_other i j p l : (i < length l)%nat -> j <> i -> nth_error (set_thread i p l) j = nth_error l j.
Proof.
  intros H Hj. unfold set_thread. destruct (Nat.lt_ge_cases j i) as [Hlt|Hge].
  - rewrite nth_error_app1 by (rewrite firstn_length_le; lia).
    rewrite <- (firstn_skipn i l) at 2. rewrite nth_error_app1 by (rewrite firstn_length_le; lia). reflexivity.
  - rewrite nth_error_app2 by (rewrite firstn_length_le; lia). rewrite firstn_length_le by lia.
    replace (j - i)%nat with (S (j - S i)) by lia. cbn [nth_error].
    rewrite <- (firstn_skipn (S i) l) at 2. rewrite nth_error_app2 by (rewrite firstn_length_le; lia).
    rewrite firstn_length_le by lia. reflexivity.
Qed.

Definition inv (n : nat) (s : state) : Prop :=
  length (threads s) = n /\ NoDup (map fst (held s)) /\
  (raced s = false -> forall i p, nth_error (threads s) i = Some p -> ordered (mine i (held s)) p) /\
  (raced s = false -> forall l i, In (l, i) (held s) -> (i < n)%nat).

Lemma inv_start n : inv n (start n).
Proof.
  split; [apply repeat_length|]. split; [constructor|]. split; [|intros _ l i []].
  intros _ i p H. apply nth_error_In in H. apply repeat_spec in H. subst p. reflexivity.
Qed.

Lemma inv_set n s i p p' d' h' r' :
  inv n s -> nth_error (threads s) i = Some p -> (raced s = true -> r' = true) ->
  NoDup (map fst h') ->
  (r' = false -> ordered (mine i (held s)) p -> ordered (mine i h') p' /\ (forall j, j <> i -> mine j h' = mine j (held s)) /\ (forall l j, In (l, j) h' -> j = i \/ In (l, j) (held s))) ->
  inv n (State d' h' r' (set_thread i p' (threads s))).
Proof.
  intros (Hl & Hn & Ho & Hi) Hp Hr Hn' Hs.
  assert (Hlt : (i < length (threads s))%nat) by (apply nth_error_Some; congruence).
  split; [cbn [threads]; rewrite set_thread_len by exact Hlt; exact Hl|]. split; [exact Hn'|]. cbn [held raced threads d].
  assert (Hr' : r' = false -> raced s = false) by (intros ->; destruct (raced s); [symmetry; auto|reflexivity]).
  split.
  - intros E j q Hq. specialize (Hr' E). destruct (Hs E (Ho Hr' i p Hp)) as (A & B & C).
    destruct (Nat.eqb_spec j i) as [->|Hj].
    + rewrite set_thread_same in Hq by exact Hlt. injection Hq as <-. exact A.
    + rewrite set_thread_other in Hq by assumption. rewrite B by exact Hj. apply Ho; assumption.
  - intros E l j Hj. specialize (Hr' E). destruct (Hs E (Ho Hr' i p Hp)) as (A & B & C).
    destruct (C l j Hj) as [->|H]; [rewrite <- Hl; exact Hlt|eapply Hi; eauto].
Qed.

Lemma release_nodup l i h : NoDup (map fst h) -> NoDup (map fst (release l i h)).
Proof.
  induction h as [|[x j] h IH]; [auto|]. unfold release in *. cbn [filter map fst snd]. intros Hn. inversion Hn as [|? ? Hx Hn']; subst.
  destruct (negb (lock_eqb l x && Nat.eqb i j)); cbn [map fst]; [|auto]. constructor; [|auto].
  intros H. apply Hx. apply in_map_iff in H as [y [<- Hy]]. apply filter_In in Hy as [Hy _]. apply (in_map fst), Hy.
Qed.

Lemma inv_step n s e s' : inv n s -> step s e = Some s' -> inv n s'.
Proof.
  intros Hinv Hs. destruct e as [i a]. unfold step in Hs.
  destruct (nth_error (threads s) i) as [p|] eqn:Hp; [|discriminate].
  assert (Hn := proj1 (proj2 Hinv)).
  destruct p as [|l k|l k|k|A f k|push k], a as [m|n']; try discriminate.
  - injection Hs as <-. eapply inv_set; eauto. intros _ Ho. cbn in Ho. split; [|split; auto].
    rewrite Ho. apply o_serve.
  - destruct (is_held l (held s)) eqn:El; [discriminate|]. injection Hs as <-.
    eapply inv_set; eauto.
    + cbn. constructor; [|exact Hn]. intros H. apply in_map_iff in H as [[x j] [Hx H]]. cbn in Hx. subst x.
      assert (E : is_held l (held s) = true) by (apply is_held_in; exists j; exact H). congruence.
    + intros _ [Ht Ho]. rewrite mine_cons_same. split; [exact Ho|]. split.
      * intros j Hj. apply mine_cons_other, Hj.
      * intros x j [H|H]; [left; congruence|right; exact H].
  - injection Hs as <-. eapply inv_set; eauto; [apply release_nodup, Hn|].
    intros _ Ho. cbn in Ho. destruct (mine i (held s)) as [|x t] eqn:Em; [contradiction|]. destruct Ho as [-> Ho].
    destruct (release_mine i l (held s) t Hn Em) as (A & B & C). rewrite A. split; [exact Ho|]. split; [exact B|].
    intros y j Hj. right. apply C, Hj.
  - injection Hs as <-. eapply inv_set; eauto.
  - destruct (f (d s)) as [d' a] eqn:Ef. injection Hs as <-. eapply inv_set; eauto.
    intros _ Ho. cbn in Ho. specialize (Ho (d s)). rewrite Ef in Ho. auto.
  - destruct (tell push (d s)) as [d' first] eqn:Ef. injection Hs as <-. eapply inv_set; eauto.
    + intros ->. reflexivity.
    + intros E Ho. destruct first; [|rewrite orb_true_r in E; discriminate]. cbn in Ho. auto.
Qed.

Lemma inv_run n es : forall s s', inv n s -> run s es = Some s' -> inv n s'.
Proof.
  induction es as [|e es IH]; cbn; intros s s' Hi Hr; [congruence|].
  destruct (step s e) as [s1|] eqn:E; [|discriminate]. eapply IH; [eapply inv_step; eauto|exact Hr].
Qed.
Theorem inv_reachable n s : reachable n s -> inv n s.
Proof. intros [es H]. eapply inv_run; [apply inv_start|exact H]. Qed.

(* ** No deadlock *)
Lemma top_in h l : In l h -> rank l <= top h.
Proof. induction h as [|x h IH]; [contradiction|]. intros [->|H]; cbn [top]; [lia|specialize (IH H); lia]. Qed.

Lemma wants_above n s i l l' : inv n s -> raced s = false -> wants s i l -> holder s i l' -> rank l' < rank l.
Proof.
  intros (_ & _ & Ho & _) Hr [k Hk] Hh. destruct (Ho Hr i _ Hk) as [Ht _].
  apply mine_in in Hh. apply top_in in Hh. lia.
Qed.

Theorem no_deadlock n s ts : inv n s -> raced s = false -> ~ deadlock s ts.
Proof.
  intros Hi Hr [Hne Hd].
  (* ranks grow along the wait *)
  assert (Hup : forall m, forall i, In i ts -> exists j l, In j ts /\ wants s j l /\ N.of_nat m <= rank l).
  { intros m. induction m as [|m IH]; intros i Hin.
    - destruct (Hd i Hin) as (l & j & Hw & _). exists i, l. split; [exact Hin|]. split; [exact Hw|]. lia.
    - destruct (IH i Hin) as (j & l & Hj & Hw & Hm). destruct (Hd j Hj) as (l1 & j1 & Hw1 & Hh1 & Hj1).
      destruct (Hd j1 Hj1) as (l2 & j2 & Hw2 & _). exists j1, l2. split; [exact Hj1|]. split; [exact Hw2|].
      pose proof (wants_above n s j1 l2 l1 Hi Hr Hw2 Hh1).
      destruct Hw as [k Hk]. destruct Hw1 as [k1 Hk1]. rewrite Hk in Hk1. injection Hk1 as <- <-. lia. }
  destruct ts as [|i ts]; [congruence|]. destruct (Hup 10%nat i (or_introl eq_refl)) as (j & l & _ & _ & H).
  destruct l; cbn in H; lia.
Qed.

(* ** Messages are done with *)
Definition sub (q p : prog) : Prop :=
  match p with
  | Done => False
  | Lock _ k | Unlock _ k => q = k
  | Any k => exists n, q = k n
  | Op _ k => exists a, q = k a
  | Exchange _ k => exists b, q = k b
  end.
Lemma sub_acc p : Acc sub p.
Proof.
  induction p as [|l k IH|l k IH|k IH|A f k IH|push k IH]; constructor; cbn; intros q H; try contradiction; try (destruct H as [? ->]); try subst q; auto.
Qed.
(* one thread takes a step *)
Definition lsub (l' l : list prog) : Prop := exists i p q, nth_error l i = Some p /\ sub q p /\ l' = set_thread i q l.
Lemma lsub_acc l : Acc lsub l.
Proof.
  induction l as [|p l IH].
  - constructor. intros l' (i & p & q & H & _). destruct i; discriminate.
  - revert l IH. induction (sub_acc p) as [p _ IHp]. intros l IH. assert (Hl := IH). induction IH as [l _ IHl].
    constructor. intros l' (i & p0 & q & H & Hs & ->). destruct i as [|i].
    + injection H as <-. apply (IHp q Hs l Hl).
    + apply (IHl (set_thread i q l)).
      * exists i, p0, q. auto.
      * apply (Acc_inv Hl). exists i, p0, q. auto.
Qed.

Lemma works_lsub s s' : works s s' -> lsub (threads s') (threads s).
Proof.
  intros (i & n & H). unfold step in H. destruct (nth_error (threads s) i) as [p|] eqn:Hp; [|discriminate].
  destruct p as [|l k|l k|k|A f k|push k]; try discriminate.
  - destruct (is_held l (held s)); [discriminate|]. injection H as <-. exists i, (Lock l k), k. cbn. auto.
  - injection H as <-. exists i, (Unlock l k), k. cbn. auto.
  - injection H as <-. exists i, (Any k), (k n). cbn. eauto.
  - destruct (f (d s)) as [d' a]. injection H as <-. exists i, (Op f k), (k a). cbn. eauto.
  - destruct (tell push (d s)) as [d' b]. injection H as <-. exists i, (Exchange push k), (k b). cbn. eauto.
Qed.
Theorem works_acc s : Acc (fun a b => works b a) s.
Proof.
  assert (H : forall l, Acc lsub l -> forall s, threads s = l -> Acc (fun a b => works b a) s).
  { intros l Hl. induction Hl as [l _ IH]. intros x <-. constructor. intros y Hy. eapply IH; [apply works_lsub, Hy|reflexivity]. }
  eapply H; [apply lsub_acc|reflexivity].
Qed.

Lemma inv_works n s s' : inv n s -> works s s' -> inv n s'.
Proof. intros Hi (i & m & H). eapply inv_step; eauto. Qed.
Lemma inv_goes_on n s s' : inv n s -> goes_on s s' -> inv n s'.
Proof. intros Hi H. induction H; [exact Hi|eapply inv_works; eauto]. Qed.

(* while a thread has a message, one of them can go on *)
Theorem some_works n s : inv n s -> raced s = false -> (exists i, (i < n)%nat /\ ~ idle s i) -> exists s', works s s'.
Proof.
  intros Hi Hr (i & Hlt & Hni).
  assert (Hlock : forall j p, nth_error (threads s) j = Some p -> (forall l k, p <> Lock l k) -> p <> Done -> exists s', works s s').
  { intros j p Hp Hl Hd. destruct p as [|l k|l k|k|A f k|push k]; [congruence|exfalso; eapply Hl; reflexivity| | | | ].
    - eexists. exists j, O. unfold step. rewrite Hp. reflexivity.
    - eexists. exists j, O. unfold step. rewrite Hp. reflexivity.
    - destruct (f (d s)) as [d' a] eqn:E. eexists. exists j, O. unfold step. rewrite Hp, E. reflexivity.
    - destruct (tell push (d s)) as [d' b] eqn:E. eexists. exists j, O. unfold step. rewrite Hp, E. reflexivity. }
  (* a thread with a message, by the rank of what it waits for *)
  assert (H : forall m j p, (N.to_nat 10 <= m + N.to_nat (match p with Lock l _ => rank l | _ => 10 end))%nat ->
            nth_error (threads s) j = Some p -> p <> Done -> exists s', works s s').
  { intros m. induction m as [|m IH]; intros j p Hm Hp Hd.
    - destruct p as [|l k|l k|k|A f k|push k]; try (eapply Hlock; [exact Hp|congruence|congruence]).
      exfalso. destruct l; cbn in Hm; lia.
    - destruct p as [|l k|l k|k|A f k|push k]; try (eapply Hlock; [exact Hp|congruence|congruence]).
      destruct (is_held l (held s)) eqn:E.
      + apply is_held_in in E as [j' Hj]. destruct Hi as (Hlen & Hn & Ho & Hown).
        specialize (Hown Hr l j' Hj). rewrite <- Hlen in Hown. apply nth_error_Some in Hown.
        destruct (nth_error (threads s) j') as [p'|] eqn:Hp'; [|congruence].
        pose proof (Ho Hr j' p' Hp') as Ho'. apply mine_in in Hj.
        apply (IH j' p'); [|exact Hp'|].
        * destruct p' as [|l' k'|l' k'|k'|A f k'|push k']; try lia. destruct Ho' as [Ht _].
          pose proof (top_in _ _ Hj). lia.
        * intros ->. cbn in Ho'. rewrite Ho' in Hj. destruct Hj.
      + eexists. exists j, O. unfold step. rewrite Hp, E. reflexivity. }
  assert (Hlen := proj1 Hi). rewrite <- Hlen in Hlt. apply nth_error_Some in Hlt.
  destruct (nth_error (threads s) i) as [p|] eqn:Hp; [|congruence].
  apply (H 10%nat i p); [lia|exact Hp|]. intros ->. apply Hni. exact Hp.
Qed.

(* ** A deadlock is for good *)
Lemma deadlock_step s ts e s' : deadlock s ts -> step s e = Some s' -> deadlock s' ts.
Proof.
  intros [Hne Hd] Hs. split; [exact Hne|]. intros i Hi. destruct (Hd i Hi) as (l & j & [k Hk] & Hh & Hj).
  destruct e as [i' a]. unfold step in Hs. destruct (nth_error (threads s) i') as [p|] eqn:Hp; [|discriminate].
  assert (Hlt : (i' < length (threads s))%nat) by (apply nth_error_Some; congruence).
  (* the thread that steps is none of them *)
  assert (Hout : ~ In i' ts).
  { intros Hin. destruct (Hd i' Hin) as (l' & j' & [k' Hk'] & Hh' & _). rewrite Hp in Hk'. injection Hk' as ->.
    destruct a; [discriminate|]. assert (E : is_held l' (held s) = true) by (apply is_held_in; eauto). rewrite E in Hs. discriminate. }
  assert (Hi' : i <> i') by congruence. assert (Hj' : j <> i') by congruence.
  assert (H : exists p' d' h' r', s' = State d' h' r' (set_thread i' p' (threads s)) /\ In (l, j) h').
  { destruct p as [|l0 k0|l0 k0|k0|A f k0|push k0], a as [m|n]; try discriminate.
    - injection Hs as <-. repeat eexists. exact Hh.
    - destruct (is_held l0 (held s)); [discriminate|]. injection Hs as <-. repeat eexists. right. exact Hh.
    - injection Hs as <-. repeat eexists. apply filter_In. split; [exact Hh|]. cbn [fst snd].
      destruct (Nat.eqb_spec i' j); [congruence|]. rewrite andb_false_r. reflexivity.
    - injection Hs as <-. repeat eexists. exact Hh.
    - destruct (f (d s)) as [d' a]. injection Hs as <-. repeat eexists. exact Hh.
    - destruct (tell push (d s)) as [d' a]. injection Hs as <-. repeat eexists. exact Hh. }
  destruct H as (p' & d' & h' & r' & -> & Hin). exists l, j. split; [|split; [exact Hin|exact Hj]].
  exists k. cbn [threads]. rewrite set_thread_other by assumption. exact Hk.
Qed.
Theorem deadlock_run es : forall s ts s', deadlock s ts -> run s es = Some s' -> deadlock s' ts.
Proof.
  induction es as [|e es IH]; cbn; intros s ts s' Hd Hr; [congruence|].
  destruct (step s e) as [s1|] eqn:E; [|discriminate]. eapply IH; [eapply deadlock_step; eauto|exact Hr].
Qed.
