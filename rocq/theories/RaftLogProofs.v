From Verif Require Import RaftLog RaftLogSpec.

Lemma make_room_spec sz need t max es old b :
  (t <= old \/ t < old + N.of_nat (length es)) -> total_mem sz es <= b ->
  exists ok d, make_room sz need t max es old b
     = Ret (ok, (skipn d es, old + N.of_nat d, b - total_mem sz (firstn d es)))
    /\ (d <= length es)%nat /\ (d = 0%nat \/ old + N.of_nat d <= t)
    /\ total_mem sz (firstn d es) <= b
    /\ (ok = true -> b - total_mem sz (firstn d es) + need <= max)
    /\ (ok = false -> b - total_mem sz (firstn d es) + need > max /\ t <= old + N.of_nat d).
Proof.
  revert old b; induction es as [|e es IH]; intros old b Ht Hb; cbn [make_room].
  - destruct (b + need <=? max) eqn:E1.
    { exists true, 0%nat. cbn. rewrite N.add_0_r, N.sub_0_r. repeat split; auto; lia. }
    destruct (t <=? old) eqn:E2.
    { exists false, 0%nat. cbn. rewrite N.add_0_r, N.sub_0_r. repeat split; auto; lia. }
    cbn in Ht; lia.
  - destruct (b + need <=? max) eqn:E1.
    { exists true, 0%nat. cbn [firstn skipn total_mem fold_right]. rewrite N.add_0_r, N.sub_0_r. repeat split; auto; lia. }
    destruct (t <=? old) eqn:E2.
    { exists false, 0%nat. cbn [firstn skipn total_mem fold_right]. rewrite N.add_0_r, N.sub_0_r. repeat split; auto; lia. }
    cbn [total_mem fold_right] in Hb. fold (total_mem sz es) in Hb. cbn [length] in Ht.
    destruct (IH (old + 1) (b - mem_size sz e)) as [ok [d [E [H1 [H2 [H3 [H4 H5]]]]]]]; [lia|lia|].
    exists ok, (S d). rewrite E. cbn [firstn skipn total_mem fold_right length].
    fold (total_mem sz (firstn d es)).
    repeat split; try lia.
    f_equal; f_equal; f_equal; [f_equal; lia|lia].
Qed.

Lemma total_mem_app sz a b : total_mem sz (a ++ b) = total_mem sz a + total_mem sz b.
Proof. induction a as [|e a IH]; cbn [app total_mem fold_right]; [reflexivity|]. fold (total_mem sz (a ++ b)) (total_mem sz a). lia. Qed.
Lemma total_mem_firstn sz d es : total_mem sz (firstn d es) + total_mem sz (skipn d es) = total_mem sz es.
Proof. rewrite <- total_mem_app, firstn_skipn; reflexivity. Qed.

(* the shape of a used log *)
Definition holds (sz : sizes) (max base : N) (A : list entry) (hw : N) (l : rlog) : Prop :=
  exists d, l_entries l = skipn d A /\ l_oldest l = base + 1 + N.of_nat d /\ (d <= length A)%nat /\
    (d = 0%nat \/ base + 1 + N.of_nat d <= hw) /\ hw <= base + N.of_nat (length A) /\
    total_mem sz (l_entries l) <= l_bytes l /\ l_bytes l <= max /\ l_max l = max.

Lemma append_holds sz max base A hw l e t :
  holds sz max base A hw l -> t <= base + N.of_nat (length A) ->
  exists l' r, append sz e t l = Ret (l', r) /\
    holds sz max base (match r with L_OK => A ++ [e] | _ => A end) (N.max hw t) l' /\
    (r = L_OutOfSpace -> l_bytes l' + mem_size sz e > max /\ t <= l_oldest l' /\
        l_bytes l' = l_bytes l - (total_mem sz (l_entries l) - total_mem sz (l_entries l'))) /\
    l_bytes l' = match r with L_OK => mem_size sz e | _ => 0 end +
        (l_bytes l - (total_mem sz (l_entries l) -
           total_mem sz (match r with L_OK => removelast (l_entries l') | _ => l_entries l' end))).
Proof.
  intros [d [He [Ho [Hd [Hw [Hhw [Hb [Hmx Hm]]]]]]]] Ht. unfold append.
  assert (Hself : holds sz max base A (N.max hw t) l).
  { exists d; do 3 (split; [assumption|]). split; [lia|]. split; [lia|]. auto. }
  destruct (e_term e =? 0).
  { exists l, L_AppendWithoutTerm. split; [reflexivity|]. split; [assumption|]. split; [discriminate|]. lia. }
  destruct (negb (blen (e_hash e) =? 32)).
  { exists l, L_NoHashChain. split; [reflexivity|]. split; [assumption|]. split; [discriminate|]. lia. }
  assert (Hlen : length (l_entries l) = (length A - d)%nat) by (rewrite He; apply skipn_length).
  destruct (make_room_spec sz (mem_size sz e) t (l_max l) (l_entries l) (l_oldest l) (l_bytes l))
    as [ok [k [E [H1 [H2 [H3 [H4 H5]]]]]]]; [rewrite Hlen, Ho; lia|assumption|].
  rewrite E; cbn [bind]. clear E.
  pose proof (total_mem_firstn sz k (l_entries l)) as Hsum.
  set (es := skipn k (l_entries l)) in *.
  assert (Hes : es = skipn (k + d) A).
  { unfold es; rewrite He. rewrite Nat.add_comm. clear; revert A; induction d as [|d IH]; intros A; [reflexivity|].
    destruct A; cbn [Nat.add skipn]; [now rewrite !skipn_nil|apply IH]. }
  assert (Hh : forall b, total_mem sz es <= b -> b <= max ->
     holds sz max base A (N.max hw t) (RLog es (l_oldest l + N.of_nat k) b (l_max l))).
  { intros b Hb1 Hb2. exists (k + d)%nat; cbn [l_entries l_oldest l_bytes l_max].
    rewrite Hlen in H1. repeat split; auto; lia. }
  destruct ok; cbn [negb].
  - specialize (H4 eq_refl). destruct (INT_MAX <? byte_size e).
    + eexists _, _. split; [reflexivity|]. cbn [l_bytes l_entries]. split; [apply Hh; lia|]. split; [discriminate|]. lia.
    + eexists _, _. split; [reflexivity|]. cbn [l_bytes l_entries]. split.
      * exists (k + d)%nat; cbn [l_entries l_oldest l_bytes l_max]. rewrite Hlen in H1.
        rewrite Hes, skipn_app, app_length; cbn [length].
        replace (k + d - length A)%nat with 0%nat by lia. cbn [skipn].
        split; [reflexivity|]. split; [lia|]. split; [lia|]. split; [lia|]. split; [lia|].
        rewrite total_mem_app. rewrite <- Hes. cbn [total_mem fold_right]. fold (total_mem sz es). lia.
      * split; [discriminate|]. rewrite removelast_last. lia.
  - destruct (H5 eq_refl) as [H6 H7].
    eexists _, _. split; [reflexivity|]. cbn [l_bytes l_entries l_oldest]. split; [apply Hh; lia|]. split; [|lia].
    intros _; split; [lia|]. split; lia.
Qed.

Lemma resize_firstn n l : (n <= length l)%nat -> resize n l = firstn n l.
Proof. intros H; unfold resize. replace (n - length l)%nat with 0%nat by lia. apply app_nil_r. Qed.

Lemma firstn_skipn_sub {A} i d (l : list A) : firstn (i - d) (skipn d l) = skipn d (firstn i l).
Proof.
  revert i l; induction d as [|d IH]; intros i l; cbn [skipn]; [now rewrite Nat.sub_0_r|].
  destruct l as [|x l]; [now rewrite firstn_nil, firstn_nil|].
  destruct i as [|i]; cbn [Nat.sub firstn]; [now rewrite ?firstn_O|apply IH].
Qed.

Lemma cancel_holds sz max base A hw l i :
  holds sz max base A hw l -> base < i -> hw < i -> i <= base + N.of_nat (length A) + 1 ->
  exists l', cancel_from i l = (l', L_OK) /\ holds sz max base (firstn (N.to_nat (i - base - 1)) A) hw l'.
Proof.
  intros [d [He [Ho [Hd [Hw [Hhw [Hb [Hmx Hm]]]]]]]] Hi1 Hi2 Hi3. unfold cancel_from.
  destruct (i <? l_oldest l) eqn:E; [lia|]. eexists; split; [reflexivity|].
  exists d; cbn [l_entries l_oldest l_bytes l_max].
  rewrite resize_firstn by (rewrite He, skipn_length; lia).
  rewrite firstn_length.
  assert (Ef : firstn (N.to_nat (i - l_oldest l)) (l_entries l) = skipn d (firstn (N.to_nat (i - base - 1)) A)).
  { rewrite He. replace (N.to_nat (i - l_oldest l)) with (N.to_nat (i - base - 1) - d)%nat by lia.
    apply firstn_skipn_sub. }
  rewrite Ef. repeat split; auto; try lia.
  rewrite <- Ef. pose proof (total_mem_firstn sz (N.to_nat (i - l_oldest l)) (l_entries l)); lia.
Qed.

Lemma run_holds sz max base A hw l : log_run sz max base A hw l -> holds sz max base A hw l.
Proof.
  induction 1 as [|A hw l e t l' r Hrun IH Ht E|A hw l i l' r Hrun IH H1 H2 H3 E].
  - exists 0%nat; cbn. repeat split; auto; lia.
  - destruct (append_holds sz max base A hw l e t IH Ht) as [l2 [r2 [E2 [H _]]]].
    rewrite E in E2; injection E2 as <- <-; exact H.
  - destruct (cancel_holds sz max base A hw l i IH H1 H2 H3) as [l2 [E2 H]].
    rewrite E in E2; injection E2 as <- _; exact H.
Qed.

Lemma nth_error_skipn {A} (l : list A) d k : nth_error (skipn d l) k = nth_error l (d + k).
Proof. revert l; induction d as [|d IH]; intros [|x l]; cbn [skipn Nat.add nth_error]; auto; now destruct k. Qed.

Lemma holds_lookup sz max base A hw l i : holds sz max base A hw l -> base < i ->
  at_idx l i = nth_error A (N.to_nat (i - base - 1)) \/ (at_idx l i = None /\ i < hw).
Proof.
  intros [d [He [Ho [Hd [Hw [Hhw _]]]]]] Hi. unfold at_idx.
  destruct (i <? l_oldest l) eqn:E; [right; split; [reflexivity|lia]|].
  left. rewrite He, nth_error_skipn. f_equal; lia.
Qed.

Lemma arun_run sz max base A hw l : append_run sz max base A hw l ->
  log_run sz max base A hw l /\ l_bytes l = total_mem sz (l_entries l).
Proof.
  induction 1 as [|A hw l e t l' r Hrun [IH IHb] Ht E].
  - split; [constructor|reflexivity].
  - split; [eapply run_append; eauto|].
    destruct (append_holds sz max base A hw l e t (run_holds _ _ _ _ _ _ IH) Ht) as [l2 [r2 [E2 [H [Ho Hb]]]]].
    rewrite E in E2; injection E2 as <- <-.
    pose proof (run_holds _ _ _ _ _ _ IH) as [d [_ [_ [_ [_ [_ [Hlb _]]]]]]].
    destruct H as [d' [_ [_ [_ [_ [_ [Hub _]]]]]]].
    rewrite Hb, IHb.
    assert (Hle : total_mem sz (match r with L_OK => removelast (l_entries l') | _ => l_entries l' end) <= total_mem sz (l_entries l)).
    { revert E; unfold append.
      destruct (e_term e =? 0); [intros E; injection E as <- <-; lia|].
      destruct (negb _); [intros E; injection E as <- <-; lia|].
      destruct (make_room sz (mem_size sz e) t (l_max l) (l_entries l) (l_oldest l) (l_bytes l)) as [[ok [[es o] b]]|] eqn:Em; [|discriminate].
      cbn [bind].
      assert (Hes : total_mem sz es <= total_mem sz (l_entries l)).
      { clear -Em. revert Em. generalize (l_oldest l) (l_bytes l). generalize (l_entries l) as x.
        induction x as [|y x IHx]; intros o1 b1; cbn [make_room].
        - destruct (b1 + _ <=? _); [intros E; injection E as <- <- <- <-; lia|].
          destruct (t <=? o1); [intros E; injection E as <- <- <- <-; lia|discriminate].
        - destruct (b1 + _ <=? _); [intros E; injection E as <- <- <- <-; lia|].
          destruct (t <=? o1); [intros E; injection E as <- <- <- <-; lia|].
          intros E; apply IHx in E. cbn [total_mem fold_right]. fold (total_mem sz x). lia. }
      destruct (negb ok); [intros E; injection E as <- <-; cbn [l_entries]; lia|].
      destruct (INT_MAX <? byte_size e); intros E; injection E as <- <-; cbn [l_entries]; [lia|].
      rewrite removelast_last; lia. }
    destruct r; try lia.
    revert Hb Hle. revert E; unfold append.
    destruct (e_term e =? 0); [intros E; discriminate E|].
    destruct (negb _); [intros E; discriminate E|].
    destruct (make_room sz (mem_size sz e) t (l_max l) (l_entries l) (l_oldest l) (l_bytes l)) as [[ok [[es o] b]]|] eqn:Em; [|discriminate].
    cbn [bind]. destruct (negb ok); [discriminate|]. destruct (INT_MAX <? byte_size e); [discriminate|].
    intros E; injection E as <-. cbn [l_entries l_bytes]. rewrite removelast_last, total_mem_app.
    cbn [total_mem fold_right]. lia.
Qed.

Lemma total_mem_skip_mono sz d A : total_mem sz (skipn d A) <= total_mem sz A.
Proof. pose proof (total_mem_firstn sz d A); lia. Qed.

Lemma skipn_le_mem sz a b A : (a <= b)%nat -> total_mem sz (skipn b A) <= total_mem sz (skipn a A).
Proof.
  intros H. replace b with (b - a + a)%nat by lia. generalize (b - a)%nat; intros k.
  assert (Hs : skipn (k + a) A = skipn k (skipn a A)).
  { clear; revert A; induction a as [|a IH]; intros A; [now rewrite Nat.add_0_r|].
    rewrite Nat.add_succ_r. destruct A; cbn [skipn]; [now rewrite skipn_nil|apply IH]. }
  rewrite Hs; apply total_mem_skip_mono.
Qed.

Lemma append_only_space sz max base A hw l e t l' :
  append_run sz max base A hw l -> t <= base + N.of_nat (length A) ->
  append sz e t l = Ret (l', L_OutOfSpace) ->
  total_mem sz (entries_on base t A) + mem_size sz e > max.
Proof.
  intros Hr Ht E. destruct (arun_run _ _ _ _ _ _ Hr) as [Hl Hb].
  destruct (append_holds sz max base A hw l e t (run_holds _ _ _ _ _ _ Hl) Ht) as [l2 [r2 [E2 [H [Ho _]]]]].
  rewrite E in E2; injection E2 as <- <-.
  destruct (Ho eq_refl) as [H1 [H2 H3]].
  destruct (arun_run _ _ _ _ _ _ (arun_append sz max base A hw l e t l' _ Hr Ht E)) as [_ Hb'].
  destruct H as [d [He [Ho' [Hd [Hw [_ [_ [_ _]]]]]]]].
  unfold entries_on.
  assert (Hm : total_mem sz (l_entries l') <= total_mem sz (skipn (N.to_nat (t - base - 1)) A)).
  { rewrite He. apply skipn_le_mem. lia. }
  lia.
Qed.
