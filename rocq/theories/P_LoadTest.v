(* C105: the load test runs each user once, spreads them over the hosts, and
   reports what it measured. *)
From Verif Require Import Base LoadTest.
From Coq Require Import Permutation.
Open Scope Z_scope.

Lemma int32_id x : - 2 ^ 31 <= x < 2 ^ 31 -> int32 x = x.
Proof. intros H. unfold int32. rewrite Z.mod_small by lia. lia. Qed.

(* After any schedule of the workers: the numbers taken so far, in the order in
   which they were taken, count down from the top without a gap. *)
Definition down (count : Z) (n : nat) : list Z := map (fun k => count - 1 - Z.of_nat k) (seq 0 n).
Lemma down_S count n : down count (S n) = down count n ++ [count - 1 - Z.of_nat n].
Proof. unfold down. rewrite seq_S, map_app. reflexivity. Qed.

Lemma schedule_inv count workers : 0 <= count < 2 ^ 31 -> Z.of_nat workers < 2 ^ 31 ->
  forall ws p,
  (NoDup (gone p) /\ incl (gone p) (seq 0 workers) /\
   map snd (taken p) = down count (length (taken p)) /\
   counter p = count - Z.of_nat (length (taken p)) - Z.of_nat (length (gone p)) /\
   Z.of_nat (length (taken p)) <= count /\ (gone p <> [] -> Z.of_nat (length (taken p)) = count)) ->
  incl ws (seq 0 workers) ->
  let p' := schedule ws p in
  NoDup (gone p') /\ incl (gone p') (seq 0 workers) /\
   map snd (taken p') = down count (length (taken p')) /\
   counter p' = count - Z.of_nat (length (taken p')) - Z.of_nat (length (gone p')) /\
   Z.of_nat (length (taken p')) <= count /\ (gone p' <> [] -> Z.of_nat (length (taken p')) = count).
Proof.
  intros HC HW. induction ws as [|w ws IH]; intros p I W; [exact I|]. cbn [schedule fold_left]. apply IH.
  2: { intros x X. apply W. right. exact X. }
  destruct I as (ND & IN & D & C & L & G). unfold take.
  destruct (existsb (Nat.eqb w) (gone p)) eqn:X; [repeat (split; [assumption|]); assumption|].
  assert (NI : ~ In w (gone p)).
  { intros I. enough (existsb (Nat.eqb w) (gone p) = true) by congruence. apply existsb_exists. exists w. split; [exact I|apply Nat.eqb_refl]. }
  assert (GL : (length (gone p) <= workers)%nat).
  { apply NoDup_incl_length in IN; [|exact ND]. rewrite seq_length in IN. exact IN. }
  assert (GL2 : (S (length (gone p)) <= workers)%nat).
  { assert (I2 : incl (w :: gone p) (seq 0 workers)) by (intros y [<-|Y]; [apply W; left; reflexivity|exact (IN y Y)]).
    apply NoDup_incl_length in I2; [|constructor; assumption]. rewrite seq_length in I2. exact I2. }
  rewrite int32_id by lia. rewrite C.
  destruct (Z.ltb_spec (count - Z.of_nat (length (taken p)) - Z.of_nat (length (gone p)) - 1) 0) as [N|N].
  - cbn [gone taken counter length]. split; [constructor; assumption|]. split; [intros y [<-|Y]; [apply W; left; reflexivity|exact (IN y Y)]|].
    split; [exact D|]. split; [lia|]. split; [exact L|]. intros _.
    destruct (gone p) as [|g gs] eqn:E; [cbn [length] in *; lia|apply G; discriminate].
  - assert (E : gone p = []).
    { destruct (gone p) as [|g gs] eqn:E; [reflexivity|]. assert (Z.of_nat (length (taken p)) = count) by (apply G; discriminate).
      cbn [length] in *. lia. }
    rewrite E in *. cbn [gone taken counter length] in *. rewrite map_app, app_length. cbn [map length snd].
    split; [constructor|]. split; [intros y []|]. split.
    { rewrite Nat.add_1_r, down_S, D. f_equal. f_equal. lia. }
    split; [lia|]. split; [lia|]. congruence.
Qed.

(* When all workers have returned, however they were scheduled, each number
   below the count was taken once, and no other. *)
Theorem C105_each_user_once_partial count workers ws :
  0 <= count < 2 ^ 31 -> (0 < workers)%nat -> Z.of_nat workers < 2 ^ 31 ->
  incl ws (seq 0 workers) ->
  let p := schedule ws (start count) in
  (forall w, (w < workers)%nat -> In w (gone p)) ->
  Permutation (map snd (taken p)) (map Z.of_nat (seq 0 (Z.to_nat count))).
Proof.
  intros HC W0 HW I p A. destruct (schedule_inv count workers HC HW ws (start count)) as (_ & _ & D & _ & _ & G).
  - unfold start. cbn [gone taken counter length map]. rewrite int32_id by lia. split; [constructor|].
    split; [intros y []|]. split; [reflexivity|]. split; [lia|]. split; [lia|congruence].
  - exact I.
  - fold p in D, G. assert (L : Z.of_nat (length (taken p)) = count).
    { apply G. intros E. specialize (A 0%nat W0). rewrite E in A. exact A. }
    rewrite D. apply NoDup_Permutation.
    + unfold down. apply (FinFun.Injective_map_NoDup); [intros x y; lia|apply seq_NoDup].
    + apply (FinFun.Injective_map_NoDup); [intros x y; lia|apply seq_NoDup].
    + intros x. unfold down. rewrite !in_map_iff. split.
      * intros (k & <- & K). apply in_seq in K. exists (Z.to_nat (count - 1 - Z.of_nat k)). split; [lia|]. apply in_seq. lia.
      * intros (k & <- & K). apply in_seq in K. exists (Z.to_nat (count - 1 - Z.of_nat k)). split; [lia|]. apply in_seq. lia.
Qed.
(* And none are run, if the count is a multiple of 2^32. *)
Theorem C105_large_counts_refuted k w : 
  let p := schedule [w] (start (2 ^ 32 * k)) in gone p = [w] /\ taken p = [].
Proof.
  assert (S : int32 (2 ^ 32 * k) = 0).
  { unfold int32. rewrite Z.add_comm, (Z.mul_comm (2 ^ 32)), Z.mod_add by lia. reflexivity. }
  cbn zeta. unfold schedule, start, fold_left, take. cbn [counter gone taken existsb]. rewrite S. split; reflexivity.
Qed.
Example C105_users_meet : let p := schedule [0; 1; 1; 0; 2; 1; 0; 2]%nat (start 4) in
  map snd (taken p) = [3; 2; 1; 0] /\ gone p = [0; 1; 2]%nat.
Proof. vm_compute. split; reflexivity. Qed.

(* A host is chosen that has the least outstanding, and is counted. *)
Lemma least_spec : forall l m o, let '(m', o') := least l m o in
  (m' <= m)%N /\ (forall h c, In (h, c) l -> (m' <= c)%N) /\ ((m' = m /\ o' = o) \/ In (o', m') l).
Proof.
  induction l as [|[h c] l IH]; intros m o; cbn [least].
  - split; [lia|]. split; [intros h c []|auto].
  - destruct (N.ltb_spec c m) as [L|L].
    + specialize (IH c h). destruct (least l c h) as [m' o']. destruct IH as (A & B & C). split; [lia|]. split.
      * intros h' c' [E|I]; [injection E as <- <-; exact A|exact (B _ _ I)].
      * right. destruct C as [[-> ->]|C]; [left; reflexivity|right; exact C].
    + specialize (IH m o). destruct (least l m o) as [m' o']. destruct IH as (A & B & C). split; [exact A|]. split.
      * intros h' c' [E|I]; [injection E as <- <-; lia|exact (B _ _ I)].
      * destruct C as [C|C]; [left; exact C|right; right; exact C].
Qed.
Theorem C105_least_busy_host_partial l l' h :
  l <> [] -> (forall x c, In (x, c) l -> (c < 2 ^ 64 - 1)%N) -> get_host l = (l', h) ->
  exists m, In (h, m) l /\ (forall x c, In (x, c) l -> (m <= c)%N) /\
            l' = map (fun e => if list_eq_dec N.eq_dec (fst e) h then (fst e, N.succ (snd e)) else e) l.
Proof.
  intros NE B H. unfold get_host in H. pose proof (least_spec l (2 ^ 64 - 1)%N []) as S.
  destruct (least l (2 ^ 64 - 1)%N []) as [m o]. destruct S as (_ & S2 & S3).
  inversion H as [[E1 E2]]. subst o l'. exists m.
  destruct S3 as [[-> _]|S3].
  - exfalso. destruct l as [|[x c] l]; [contradiction|]. specialize (S2 x c (or_introl eq_refl)). specialize (B x c (or_introl eq_refl)). lia.
  - split; [exact S3|]. split; [exact S2|reflexivity].
Qed.
(* But it counts as outstanding only while it is dialled: any number of
   connections made one after the other may all be to one host. *)
Theorem C105_all_on_one_host_refuted a b n : a <> b ->
  connections n [(a, 0%N); (b, 0%N)] = repeat a n.
Proof.
  intros AB. assert (S : new_websocket [(a, 0%N); (b, 0%N)] = ([(a, 0%N); (b, 0%N)], a)).
  { unfold new_websocket, get_host. cbn [least N.ltb N.compare]. change (2 ^ 64 - 1)%N with 18446744073709551615%N.
    cbn [N.ltb N.compare]. unfold return_host, set_host. cbn [map fst snd].
    destruct (list_eq_dec N.eq_dec a a) as [_|C]; [|contradiction]. destruct (list_eq_dec N.eq_dec b a) as [C|_]; [congruence|].
    cbn [map fst snd]. destruct (list_eq_dec N.eq_dec a a) as [_|C]; [|contradiction].
    destruct (list_eq_dec N.eq_dec b a) as [C|_]; [congruence|]. reflexivity. }
  induction n as [|n IH]; [reflexivity|]. cbn [connections repeat]. rewrite S, IH. reflexivity.
Qed.

(* The statistics: greatest values and sums are those of what was measured; *)
Definition greatest (l : list Z) : Z := fold_right Z.max 0 l.
Definition sum (l : list Z) : Z := fold_right Z.add 0 l.
Lemma stats_inv : forall xs s, 
  cmax (fold_left add_stat xs s) = Z.max (cmax s) (fold_right Z.max (cmax s) (map fst xs)) /\
  rmax (fold_left add_stat xs s) = Z.max (rmax s) (fold_right Z.max (rmax s) (map snd xs)) /\
  csum (fold_left add_stat xs s) = csum s + sum (map fst xs) /\
  rsum (fold_left add_stat xs s) = rsum s + sum (map snd xs) /\
  rmin (fold_left add_stat xs s) = rmin s.
Proof.
  assert (M : forall l a b, fold_right Z.max (Z.max a b) l = Z.max b (fold_right Z.max a l)).
  { induction l as [|x l IH]; intros a b; cbn [fold_right]; [lia|]. rewrite IH. lia. }
  induction xs as [|[c r] xs IH]; intros s; cbn [fold_left map fold_right sum fst snd]; [repeat split; lia|].
  destruct (IH (add_stat s (c, r))) as (A & B & C & D & E). rewrite A, B, C, D, E.
  unfold add_stat. cbn [cmax rmax csum rsum rmin].
  replace (if cmax s <? c then c else cmax s) with (Z.max (cmax s) c) by (destruct (Z.ltb_spec (cmax s) c); lia).
  replace (if rmax s <? r then r else rmax s) with (Z.max (rmax s) r) by (destruct (Z.ltb_spec (rmax s) r); lia).
  rewrite !M. fold (sum (map fst xs)). fold (sum (map snd xs)). repeat split; lia.
Qed.
Theorem C105_greatest_and_sums_partial xs :
  let s := statistics xs in
  cmax s = greatest (map fst xs) /\ rmax s = greatest (map snd xs) /\
  csum s = sum (map fst xs) /\ rsum s = sum (map snd xs).
Proof.
  cbn zeta. unfold statistics. destruct (stats_inv xs no_stats) as (A & B & C & D & _). rewrite A, B, C, D.
  cbn [no_stats cmax rmax csum rsum]. unfold greatest.
  assert (P : forall l, 0 <= fold_right Z.max 0 l) by (induction l; cbn [fold_right]; lia).
  pose proof (P (map fst xs)). pose proof (P (map snd xs)). repeat split; lia.
Qed.
(* but the least time of a restore is never reported, only a constant, *)
Theorem C105_no_restore_minimum_refuted xs : rmin (statistics xs) = 2 ^ 63 - 1.
Proof. unfold statistics. destruct (stats_inv xs no_stats) as (_ & _ & _ & _ & E). exact E. Qed.
(* and a restore that was faster than all creates is reported as a create. *)
Theorem C105_restore_is_taken_for_create_refuted c r :
  0 < r < c -> c < 2 ^ 63 - 1 -> forall n, cmin (statistics (repeat (c, r) (S n))) = r.
Proof.
  intros R C. assert (G : forall n, cmin (fold_left add_stat (repeat (c, r) n) (add_stat no_stats (c, r))) = r).
  { assert (H : forall n s, cmin s = r -> cmin (fold_left add_stat (repeat (c, r) n) s) = r).
    { induction n as [|n IH]; intros s H; [exact H|]. cbn [repeat fold_left]. apply IH. unfold add_stat. cbn [cmin]. rewrite H.
      destruct (Z.ltb_spec c r); [lia|]. cbn [andb]. destruct (Z.ltb_spec r r); [lia|]. reflexivity. }
    intros n. apply H. unfold add_stat, no_stats, maxint64. cbn [cmin].
    destruct (Z.ltb_spec c (2 ^ 63 - 1)); [|lia]. destruct (Z.ltb_spec 0 c); [|lia]. cbn [andb].
    destruct (Z.ltb_spec r c); [|lia]. destruct (Z.ltb_spec 0 r); [|lia]. reflexivity. }
  intros n. apply G.
Qed.
Example C105_stats_meet : statistics [(30, 9); (20, 12); (25, 0)] = Stats 9 30 75 (2 ^ 63 - 1) 12 21.
Proof. vm_compute. reflexivity. Qed.

Print Assumptions C105_each_user_once_partial.
Print Assumptions C105_large_counts_refuted.
Print Assumptions C105_least_busy_host_partial.
Print Assumptions C105_all_on_one_host_refuted.
Print Assumptions C105_greatest_and_sums_partial.
Print Assumptions C105_no_restore_minimum_refuted.
Print Assumptions C105_restore_is_taken_for_create_refuted.
