From Verif Require Import Base Metrics MetricsSpec.
From Coq Require Import String FinFun.
Open Scope list_scope.
Open Scope N_scope.

Lemma tags_eqb_eq a : forall b, tags_eqb a b = true <-> a = b.
Proof.
  induction a as [|[x1 x2] a IH]; intros [|[y1 y2] b]; cbn; split; try congruence.
  - intros H. apply andb_true_iff in H as [H1 H2]. apply IH in H2 as ->.
    unfold tag_eqb in H1. apply andb_true_iff in H1 as [A B]. cbn in A, B.
    apply String.eqb_eq in A as ->. apply String.eqb_eq in B as ->. reflexivity.
  - intros H. injection H as -> -> ->. unfold tag_eqb. cbn. rewrite !String.eqb_refl. cbn.
    now apply IH.
Qed.
Lemma key_eqb_eq a b : key_eqb a b = true <-> a = b.
Proof.
  destruct a as [a1 a2], b as [b1 b2]. unfold key_eqb. cbn. split.
  - intros H. apply andb_true_iff in H as [H1 H2]. apply String.eqb_eq in H1 as ->.
    apply tags_eqb_eq in H2 as ->. reflexivity.
  - intros H. injection H as -> ->. rewrite String.eqb_refl. cbn. now apply tags_eqb_eq.
Qed.
Lemma key_eqb_refl a : key_eqb a a = true.
Proof. now apply key_eqb_eq. Qed.
Lemma key_eqb_neq a b : a <> b -> key_eqb a b = false.
Proof. intros H. destruct (key_eqb a b) eqn:E; [apply key_eqb_eq in E; contradiction|reflexivity]. Qed.

Definition key_dec (a b : key) : {a = b} + {a <> b}.
Proof.
  destruct (key_eqb a b) eqn:E; [left; now apply key_eqb_eq|].
  right. intros ->. rewrite key_eqb_refl in E. discriminate.
Defined.

(* The table's keys are all different, and none is that of an error. *)
Fixpoint distinct (l : list key) : bool :=
  match l with [] => true | k :: l' => (negb (existsb (key_eqb k) l') && distinct l')%bool end.
Lemma distinct_nodup l : distinct l = true -> NoDup l.
Proof.
  induction l as [|k l IH]; cbn; [constructor|]. intros H. apply andb_true_iff in H as [A B].
  constructor; [|auto]. intros Hi. apply negb_true_iff in A.
  assert (existsb (key_eqb k) l = true); [|congruence].
  apply existsb_exists. exists k. split; [exact Hi|apply key_eqb_refl].
Qed.
Lemma table_nodup : NoDup table.
Proof. apply distinct_nodup. vm_compute. reflexivity. Qed.
Lemma table_no_errors : forall k, In k table -> fst k <> "errors"%string.
Proof.
  assert (H : forallb (fun k => negb (fst k =? "errors")%string) table = true) by (vm_compute; reflexivity).
  intros k Hk E. rewrite forallb_forall in H. specialize (H k Hk). rewrite E in H. discriminate.
Qed.

Lemma nodup_filter {A} (f : A -> bool) (l : list A) : NoDup l -> NoDup (filter f l).
Proof.
  induction 1 as [|x l H1 H2 IH]; cbn; [constructor|]. destruct (f x); [|exact IH].
  constructor; [|exact IH]. intros H. apply filter_In in H as [H _]. contradiction.
Qed.

Lemma nodup_app_ {A} (a b : list A) : NoDup a -> NoDup b -> (forall x, In x a -> ~ In x b) -> NoDup (a ++ b).
Proof.
  induction a as [|x a IH]; intros Ha Hb Hd; [exact Hb|]. inversion Ha as [|? ? H1 H2]; subst.
  cbn. constructor.
  - intros H. apply in_app_or in H as [H|H]; [contradiction|]. apply (Hd x); [now left|exact H].
  - apply IH; auto. intros y Hy. apply Hd. now right.
Qed.

Section NAMES.
Variable names : list string.
Hypothesis names_ok : NoDup names.

Definition listed (v : key -> N) : list key :=
  filter (fun k => 0 <? v k) (map err_key names) ++ table.
Lemma all_listed v : all_as_pb names v = map (fun k => U64 k (v k)) (listed v).
Proof. unfold all_as_pb, listed. now rewrite map_app. Qed.
Lemma listed_ext v w : (forall k, v k = w k) -> all_as_pb names v = all_as_pb names w.
Proof.
  intros H. unfold all_as_pb. f_equal.
  - rewrite (filter_ext (fun k => 0 <? v k) (fun k => 0 <? w k)) by (intros k; now rewrite H).
    apply map_ext. intros k. now rewrite H.
  - apply map_ext. intros k. now rewrite H.
Qed.
Lemma listed_nodup v : NoDup (listed v).
Proof.
  unfold listed. apply nodup_app_.
  - apply nodup_filter. apply FinFun.Injective_map_NoDup; [|exact names_ok].
    intros a b H. unfold err_key in H. congruence.
  - apply table_nodup.
  - intros k Hk Ht. apply filter_In in Hk as [Hk _]. apply in_map_iff in Hk as [n [<- _]].
    apply (table_no_errors _ Ht). reflexivity.
Qed.
Lemma not_listed v k : is_counter names k -> ~ In k (listed v) -> v k = 0.
Proof.
  intros [H|[n [H ->]]] Hn.
  - exfalso. apply Hn. apply in_or_app. now right.
  - destruct (N.ltb_spec 0 (v (err_key n))); [|lia]. exfalso. apply Hn. apply in_or_app. left.
    apply filter_In. split; [now apply in_map|]. now apply N.ltb_lt.
Qed.

Lemma find_listed v k : forall l, 
  find (fun p => key_eqb (u_key p) k) (map (fun j => U64 j (v j)) l) =
  if in_dec key_dec k l
  then Some (U64 k (v k)) else None.
Proof.
  induction l as [|a l IH]; [reflexivity|]. cbn [map find u_key].
  destruct (key_eqb a k) eqn:E.
  - apply key_eqb_eq in E as ->. clear IH. destruct (in_dec key_dec k (k :: l)) as [_|n]; [reflexivity|]. exfalso. apply n. now left.
  - rewrite IH. clear IH. destruct (in_dec key_dec k l) as [H|H], (in_dec key_dec k (a :: l)) as [H'|H'];
      try reflexivity; exfalso.
    + apply H'. now right.
    + destruct H' as [->|H']; [|contradiction]. now rewrite key_eqb_refl in E.
Qed.

Lemma reported_app a b k : reported (a ++ b) k = (reported a k + reported b k)%Z.
Proof.
  unfold reported. rewrite filter_app, map_app. generalize (map snd (filter (fun x => key_eqb (fst x) k) b)).
  intros l. induction (map snd (filter (fun x => key_eqb (fst x) k) a)) as [|x m IH]; cbn; [reflexivity|].
  rewrite IH. lia.
Qed.
Lemma reported_one (f : key -> Z) k : forall l, NoDup l ->
  (In k l -> reported (map (fun j => (j, f j)) l) k = f k) /\
  (~ In k l -> reported (map (fun j => (j, f j)) l) k = 0%Z).
Proof.
  induction l as [|a l IH]; intros Hn; [split; [intros []|reflexivity]|].
  inversion Hn as [|? ? H1 H2]; subst. destruct (IH H2) as [I1 I2].
  unfold reported in *. cbn [map filter fst]. destruct (key_eqb a k) eqn:E.
  - apply key_eqb_eq in E as ->. cbn [map snd fold_right]. rewrite (I2 H1). split; intros; [lia|].
    exfalso. apply H. now left.
  - split; intros H.
    + destruct H as [->|H]; [now rewrite key_eqb_refl in E|]. now apply I1.
    + apply I2. intros H0. apply H. now right.
Qed.

Lemma int64_rise a b : b <= a -> a < 2 ^ 63 -> int64_diff a b = (Z.of_N a - Z.of_N b)%Z.
Proof.
  intros H1 H2. unfold int64_diff.
  replace (a + 2 ^ 64 - b) with ((a - b) + 1 * 2 ^ 64) by lia.
  rewrite N.mod_add, N.mod_small by lia.
  destruct (N.ltb_spec (a - b) (2 ^ 63)); lia.
Qed.

(* What one poll adds to the sum of [k]. *)
Lemma poll_adds (old : key -> N) (known : bool) (v : key -> N) k :
  is_counter names k -> (forall j, old j <= v j /\ v j < 2 ^ 63) ->
  (known = false -> old k = 0) ->
  reported (map (write_one (if known then all_as_pb names old else [])) (all_as_pb names v)) k =
  f32 (Z.of_N (v k) - Z.of_N (old k)).
Proof.
  intros Hk Hr H0. set (prev := if known then _ else _).
  set (f := fun j => match find_prev prev j with
                     | None => f32 (Z.of_N (v j))
                     | Some p => f32 (int64_diff (v j) (u_v p)) end).
  rewrite all_listed, map_map. unfold write_one. cbn [u_key u_v].
  change (fun x => (x, match find_prev prev x with
                       | Some p => f32 (int64_diff (v x) (u_v p)) | None => f32 (Z.of_N (v x)) end))
    with (fun x => (x, f x)).
  destruct (reported_one f k (listed v) (listed_nodup v)) as [I1 I2].
  destruct (find (fun j => key_eqb j k) (listed v)) as [j|] eqn:F.
  - apply find_some in F as [F1 F2]. apply key_eqb_eq in F2 as ->. rewrite (I1 F1).
    unfold f, find_prev, prev. destruct known.
    + rewrite all_listed, find_listed. destruct in_dec as [Hi|Hi]; cbn [u_v].
      * f_equal. apply int64_rise; apply Hr.
      * rewrite (not_listed old k Hk Hi). f_equal. lia.
    + cbn. rewrite H0 by reflexivity. f_equal. lia.
  - assert (Hi : ~ In k (listed v)).
    { intros Hi. apply (find_none _ _ F) in Hi. now rewrite key_eqb_refl in Hi. }
    rewrite (I2 Hi). pose proof (not_listed v k Hk Hi) as E. pose proof (Hr k) as [A _].
    replace (old k) with 0 by lia. rewrite E. reflexivity.
Qed.

(* The values at the last answered poll. *)
Definition held (ps : list poll) (k : key) : N := counted ps k.

Lemma counted_snoc ps p k : counted (ps ++ [p]) k = if snd p then fst p k else counted ps k.
Proof. unfold counted. now rewrite fold_left_app. Qed.

Lemma rising_snoc p : forall ps from, rising from (ps ++ [p]) ->
  rising from ps /\ (forall k, (forall q, In q ps -> fst q k <= fst p k) /\ from k <= fst p k /\ fst p k < 2 ^ 63).
Proof.
  induction ps as [|q ps IH]; intros from; cbn [app rising].
  - intros [H _]. split; [exact I|]. intros k. destruct (H k) as [A B]. split; [intros q []|]. auto.
  - intros [H H0]. destruct (IH _ H0) as [A B]. split; [auto|]. intros k.
    destruct (B k) as [B1 [B2 B3]]. destruct (H k) as [C1 C2]. split; [|split; [lia|exact B3]].
    intros q' [->|Hq]; auto.
Qed.
Lemma counted_in ps k : counted ps k = 0 \/ exists q, In q ps /\ counted ps k = fst q k.
Proof.
  induction ps as [|p ps IH] using rev_ind; [now left|]. rewrite counted_snoc.
  destruct (snd p).
  - right. exists p. split; [apply in_or_app; right; now left|reflexivity].
  - destruct IH as [IH|[q [A B]]]; [now left|]. right. exists q. split; [apply in_or_app; now left|exact B].
Qed.

(* The sum over the answered polls, rise by rise. *)
Fixpoint rises (a : Z) (ps : list poll) (k : key) : list Z :=
  match ps with
  | [] => []
  | p :: ps' => if snd p then (Z.of_N (fst p k) - a)%Z :: rises (Z.of_N (fst p k)) ps' k
                else rises a ps' k
  end.
Lemma rises_snoc p k : forall ps a, rises a (ps ++ [p]) k = rises a ps k ++
  (if snd p then [(Z.of_N (fst p k) - fold_left (fun a (p : poll) => if snd p then Z.of_N (fst p k) else a) ps a)%Z] else []).
Proof.
  induction ps as [|q ps IH]; intros a; cbn [app rises fold_left].
  - now destruct (snd p).
  - destruct (snd q); cbn [app]; now rewrite IH.
Qed.
Lemma counted_z k : forall (ps : list poll) a, fold_left (fun a (p : poll) => if snd p then Z.of_N (fst p k) else a) ps (Z.of_N a) =
  Z.of_N (fold_left (fun a (p : poll) => if snd p then fst p k else a) ps a).
Proof. induction ps as [|q ps IH]; intros a; cbn; [reflexivity|]. destruct (snd q); apply IH. Qed.

Definition zsum (l : list Z) : Z := fold_right Z.add 0%Z l.
Lemma zsum_app a b : zsum (a ++ b) = (zsum a + zsum b)%Z.
Proof. induction a as [|x a IH]; cbn; [reflexivity|]. unfold zsum in *. rewrite IH. lia. Qed.

Lemma polls_spec ps : rising (fun _ => 0) ps -> 
  (exists known : bool, fst (polls (map (snapshot names) ps)) = (if known then all_as_pb names (counted ps) else []) /\
                 (known = false -> forall k, counted ps k = 0)) /\
  forall k, is_counter names k ->
    reported (snd (polls (map (snapshot names) ps))) k = zsum (map f32 (rises 0 ps k)) /\
    zsum (rises 0 ps k) = Z.of_N (counted ps k) /\ Forall (fun d => 0 <= d)%Z (rises 0 ps k).
Proof.
  induction ps as [|p ps IH] using rev_ind; intros Hr.
  - split; [exists false; split; reflexivity|]. intros k Hk. repeat split; constructor.
  - destruct (rising_snoc _ _ _ Hr) as [R1 R2]. destruct (IH R1) as [[known [K1 K2]] IH2]. clear IH.
    unfold polls in *. rewrite map_app, fold_left_app. cbn [map fold_left].
    set (s := fold_left _ (map (snapshot names) ps) ([], [])) in *.
    unfold snapshot. destruct p as [v [|]]; cbn [snd fst].
    + assert (Hle : forall k, counted ps k <= v k /\ v k < 2 ^ 63).
      { intros k. destruct (R2 k) as [A [B C]]. cbn in A, B, C. split; [|exact C].
        destruct (counted_in ps k) as [->|[q [Q ->]]]; [lia|auto]. }
      split.
      * exists true. split; [|discriminate]. unfold update. cbn [fst].
        apply listed_ext. intros k. now rewrite counted_snoc.
      * intros k Hk. destruct (IH2 k Hk) as [A [B C]].
        unfold update. cbn [snd]. rewrite reported_app, A, K1.
        rewrite (poll_adds (counted ps) known v k Hk Hle) by auto.
        rewrite rises_snoc. cbn [snd fst]. change 0%Z with (Z.of_N 0). rewrite counted_z.
        fold (counted ps k). change (Z.of_N 0) with 0%Z.
        rewrite map_app, !zsum_app. cbn [map zsum fold_right]. rewrite counted_snoc. cbn [snd fst].
        split; [lia|]. split; [rewrite B; lia|]. apply Forall_app. split; [exact C|].
        constructor; [|constructor]. specialize (Hle k). lia.
    + split.
      * exists known. split.
        -- rewrite K1. destruct known; [|reflexivity]. apply listed_ext. intros k. now rewrite counted_snoc.
        -- intros E k. rewrite counted_snoc. now apply K2.
      * intros k Hk. destruct (IH2 k Hk) as [A [B C]]. rewrite rises_snoc, app_nil_r, counted_snoc. auto.
Qed.
End NAMES.

(* float32: exact up to 2^24, and off by at most one part in 2^24. *)
Lemma f32_near d : (0 <= d -> 2 ^ 24 * Z.abs (f32 d - d) <= d)%Z.
Proof.
  intros Hd. unfold f32. rewrite (Z.abs_eq d Hd).
  set (m := (2 ^ Z.max 0 (Z.log2 d - 23))%Z).
  destruct (Z.eq_dec d 0) as [->|Hnz]; [vm_compute; discriminate|].
  assert (Hm : (0 < m)%Z) by (apply Z.pow_pos_nonneg; lia).
  rewrite Z.sgn_pos by lia. rewrite Z.mul_1_l.
  pose proof (Z.div_mod d m ltac:(lia)) as E. pose proof (Z.mod_pos_bound d m Hm) as B.
  set (q := (d / m)%Z) in *. set (r := (d mod m)%Z) in *.
  assert (G : m = 1%Z \/ (2 ^ 23 * m <= d)%Z).
  { unfold m. destruct (Z.le_gt_cases (Z.log2 d - 23) 0) as [L|L].
    - left. now rewrite Z.max_l by lia.
    - right. rewrite Z.max_r by lia. rewrite <- Z.pow_add_r by lia.
      replace (23 + (Z.log2 d - 23))%Z with (Z.log2 d) by lia. apply Z.log2_spec. lia. }
  destruct (Z.ltb_spec (2 * r) m) as [H1|H1].
  - destruct G as [G|G]; [replace r with 0%Z in E by lia; rewrite <- E || idtac; nia|].
    replace (q * m - d)%Z with (- r)%Z by lia. rewrite Z.abs_opp, Z.abs_eq by lia. lia.
  - destruct G as [G|G]; [lia|].
    assert (U : (2 ^ 24 * Z.abs ((q + 1) * m - d) <= d)%Z).
    { replace ((q + 1) * m - d)%Z with (m - r)%Z by lia. rewrite Z.abs_eq by lia. lia. }
    destruct (Z.ltb_spec m (2 * r)); [exact U|]. destruct (Z.even q); [|exact U].
    replace (q * m - d)%Z with (- r)%Z by lia. rewrite Z.abs_opp, Z.abs_eq by lia. lia.
Qed.
Lemma f32_exact d : (0 <= d <= 2 ^ 24 -> f32 d = d)%Z.
Proof.
  intros Hd. pose proof (f32_near d ltac:(lia)) as H.
  destruct (Z.eq_dec d (2 ^ 24)) as [->|Hn]; [reflexivity|].
  assert (Z.abs (f32 d - d) < 1)%Z by lia. lia.
Qed.
Lemma f32_sum l : Forall (fun d => 0 <= d)%Z l ->
  (2 ^ 24 * Z.abs (zsum (map f32 l) - zsum l) <= zsum l)%Z.
Proof.
  induction 1 as [|d l Hd Hl IH]; [vm_compute; discriminate|].
  cbn [map zsum fold_right]. fold (zsum l). fold (zsum (map f32 l)).
  pose proof (f32_near d Hd). lia.
Qed.
