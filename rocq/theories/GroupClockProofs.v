From Verif Require Import GroupClock GroupClockSpec MembershipSpec MembershipProofs.
From Coq Require Import Sorting.Sorted Permutation.

Lemma filter_length_le {A} (f : A -> bool) l : (length (filter f l) <= length l)%nat.
Proof. induction l as [|x l IH]; cbn; [lia|]. destruct (f x); cbn; lia. Qed.
Lemma insert_perm x l : Permutation (x :: l) (insert_asc x l).
Proof.
  induction l as [|y l IH]; cbn; [reflexivity|]. destruct (x <=? y)%Z; [reflexivity|].
  transitivity (y :: x :: l); [constructor|]. now constructor.
Qed.
Lemma sort_perm l : Permutation l (sort_asc l).
Proof.
  induction l as [|x l IH]; cbn; [constructor|]. transitivity (x :: sort_asc l); [now constructor|]. apply insert_perm.
Qed.
Lemma insert_sorted x l : StronglySorted Z.le l -> StronglySorted Z.le (insert_asc x l).
Proof.
  induction l as [|y l IH]; cbn; intros H; [repeat constructor|].
  apply StronglySorted_inv in H as [H1 H2]. destruct (x <=? y)%Z eqn:E.
  - constructor; [now constructor|]. constructor; [lia|]. eapply Forall_impl; [|exact H2]. cbn; intros; lia.
  - constructor; [auto|]. eapply Permutation_Forall; [apply insert_perm|]. constructor; [lia|assumption].
Qed.
Lemma sort_sorted l : StronglySorted Z.le (sort_asc l).
Proof. induction l; cbn; [constructor|]. now apply insert_sorted. Qed.

Lemma nth_sorted l : StronglySorted Z.le l -> forall k, (k < length l)%nat ->
  (length (filter (fun x => (x <? nth k l 0)%Z) l) <= k)%nat /\
  (length (filter (fun x => (nth k l 0 <? x)%Z) l) <= length l - k - 1)%nat.
Proof.
  induction l as [|x l IH]; intros H k Hk; [cbn in Hk; lia|].
  apply StronglySorted_inv in H as [H1 H2]. rewrite Forall_forall in H2. cbn in Hk. destruct k as [|k].
  - cbn [nth]. split.
    + assert (E : filter (fun y => (y <? x)%Z) (x :: l) = []).
      { cbn. rewrite Z.ltb_irrefl. clear -H2. induction l as [|y l IH]; [reflexivity|]. cbn.
        pose proof (H2 y (or_introl eq_refl)). destruct (y <? x)%Z eqn:E; [lia|]. apply IH. intros; apply H2; now right. }
      rewrite E; cbn; lia.
    + cbn [filter length]. rewrite Z.ltb_irrefl. pose proof (filter_length_le (fun y => (x <? y)%Z) l). lia.
  - cbn [nth]. destruct (IH H1 k ltac:(lia)) as [I1 I2]. split.
    + cbn [filter]. destruct (_ <? _)%Z; cbn [length]; lia.
    + cbn [filter]. assert (x <= nth k l 0)%Z by (apply H2, nth_In; lia). destruct (nth k l 0 <? x)%Z eqn:E; [lia|]. cbn [length]. lia.
Qed.

Lemma perm_filter_length {A} (f : A -> bool) a b : Permutation a b -> length (filter f a) = length (filter f b).
Proof. induction 1; cbn; repeat match goal with |- context [if ?c then _ else _] => destruct c end; cbn; congruence. Qed.

(* the middle one of the values is within the range of any majority of them *)
Lemma median_within {A} (val : A -> Z) (good : A -> bool) (l : list A) lo hi :
  (length l < 2 * length (filter good l))%nat -> (forall x, In x l -> good x = true -> (lo <= val x <= hi)%Z) ->
  (lo <= nth (length l / 2) (sort_asc (map val l)) 0 <= hi)%Z.
Proof.
  intros Hm Hg. assert (Hl : (length (filter good l) <= length l)%nat) by apply filter_length_le.
  set (s := sort_asc (map val l)). assert (Hp : Permutation (map val l) s) by apply sort_perm.
  assert (Hlen : length s = length l) by (rewrite <- (Permutation_length Hp), map_length; reflexivity).
  assert (Hk : (length l / 2 < length s)%nat) by (rewrite Hlen; apply Nat.div_lt; lia).
  destruct (nth_sorted s (sort_sorted _) _ Hk) as [H1 H2]. set (v := nth (length l / 2) s 0%Z) in *.
  assert (Hcount : forall f, (forall x, In x l -> good x = true -> f (val x) = true) ->
            (length (filter good l) <= length (filter f (map val l)))%nat).
  { intros f. clear -l. induction l as [|x l IH]; cbn; intros H; [lia|].
    assert (Hi : (length (filter good l) <= length (filter f (map val l)))%nat) by (apply IH; intros; apply H; auto).
    destruct (good x) eqn:E; [rewrite (H x (or_introl eq_refl) E); cbn; lia|]. destruct (f (val x)); cbn; lia. }
  pose proof (Nat.div_mod (length l) 2 ltac:(lia)). pose proof (Nat.mod_upper_bound (length l) 2 ltac:(lia)).
  split.
  - destruct (Z.le_gt_cases lo v) as [|Hv]; [assumption|exfalso].
    pose proof (Hcount (fun x => (v <? x)%Z)) as Hc. rewrite (perm_filter_length _ _ _ Hp) in Hc.
    assert (length (filter good l) <= length (filter (fun x => (v <? x)%Z) s))%nat.
    { apply Hc. intros x Hi Hx. destruct (Hg x Hi Hx). lia. }
    lia.
  - destruct (Z.le_gt_cases v hi) as [|Hv]; [assumption|exfalso].
    pose proof (Hcount (fun x => (x <? v)%Z)) as Hc. rewrite (perm_filter_length _ _ _ Hp) in Hc.
    assert (length (filter good l) <= length (filter (fun x => (x <? v)%Z) s))%nat.
    { apply Hc. intros x Hi Hx. destruct (Hg x Hi Hx). lia. }
    lia.
Qed.
Lemma median_in l : l <> [] -> In (nth (length l / 2) (sort_asc l) 0%Z) l.
Proof.
  intros H. apply (Permutation_in _ (Permutation_sym (sort_perm l))). apply nth_In.
  rewrite <- (Permutation_length (sort_perm l)). apply Nat.div_lt; [|lia]. destruct l; [congruence|cbn; lia].
Qed.

(* --- the state against the history ---------------------------------------- *)
Lemma crun_snoc h o : crun (h ++ [o]) = cstep (crun h) o.
Proof. unfold crun; now rewrite fold_left_app. Qed.
Lemma last_report_snoc h o w : last_report (h ++ [o]) w = match about w o with Some t => Some t | None => last_report h w end.
Proof. unfold last_report; now rewrite fold_left_app. Qed.
Lemma crun_local h : last_report h None = Some (k_local (crun h)).
Proof.
  induction h as [|o h IH] using rev_ind; [reflexivity|]. rewrite last_report_snoc, crun_snoc. destruct o; cbn; [reflexivity|exact IH].
Qed.
Lemma crun_remote h p : last_report h (Some p) = lookup p (k_remotes (crun h)).
Proof.
  induction h as [|o h IH] using rev_ind; [reflexivity|]. rewrite last_report_snoc, crun_snoc. destruct o as [t|q t]; cbn; [exact IH|].
  destruct (beq_spec p q) as [->|Hne]; [now rewrite lookup_put_same|now rewrite lookup_put_other].
Qed.
Lemma crun_sorted h : sorted (k_remotes (crun h)).
Proof. induction h as [|o h IH] using rev_ind; [exact I|]. rewrite crun_snoc. destruct o; cbn; auto using sorted_put. Qed.

Definition time_or (m : smap Z) (p : bytes) : list Z := match lookup p m with Some t => [t] | None => [] end.
Lemma flat_map_ext_on {A B} (f g : A -> list B) l : (forall x, In x l -> f x = g x) -> flat_map f l = flat_map g l.
Proof. induction l as [|x l IH]; intros H; cbn; [reflexivity|]. rewrite H by now left. rewrite IH; auto. intros; apply H; now right. Qed.
Lemma time_or_skip q t m r : r <> q -> time_or ((q, t) :: m) r = time_or m r.
Proof. intros H. unfold time_or; cbn. destruct (beq_spec r q); [contradiction|reflexivity]. Qed.
Lemma blt_above p q r : bcmp p q <> Gt -> blt q r = true -> blt p r = true.
Proof.
  intros H1 H2. destruct (bcmp p q) eqn:E; [apply bcmp_eq in E; now subst|apply blt_lt in E; eapply blt_trans; eauto|congruence].
Qed.
Lemma times_of_spec s : ssorted s -> forall m, sorted m -> times_of s m = flat_map (time_or m) s.
Proof.
  induction s as [|p s IH]; intros Hs m Hm; [destruct m; reflexivity|].
  cbn in Hs. destruct Hs as [H1 H2]. specialize (IH H2).
  induction m as [|[q t] m IHm].
  { cbn. clear. induction s; cbn; auto. }
  pose proof Hm as Hm0. cbn in Hm. destruct Hm as [A Hm]. specialize (IHm Hm).
  cbn [times_of]. destruct (bcmp p q) eqn:E.
  - apply bcmp_eq in E. subst q. cbn [flat_map]. unfold time_or at 1; cbn [lookup]. rewrite beq_refl. cbn [app]. f_equal.
    rewrite IH by assumption. apply flat_map_ext_on. intros r Hr. symmetry. apply time_or_skip.
    specialize (H1 r Hr). intros ->. rewrite blt_irrefl in H1; discriminate.
  - cbn [flat_map]. rewrite IH by exact Hm0.
    assert (Ht : time_or ((q, t) :: m) p = []).
    { unfold time_or. rewrite all_above_lookup; [reflexivity|]. cbn. split; [now apply blt_lt|].
      apply all_above_trans with (k := q); [now apply blt_lt|assumption]. }
    now rewrite Ht.
  - change ((fix go (m0 : smap Z) : list Z := match m0 with [] => [] | (q0, t0) :: m' =>
        match bcmp p q0 with Eq => t0 :: times_of s m' | Lt => times_of s m0 | Gt => go m' end end) m) with (times_of (p :: s) m).
    rewrite IHm. assert (Hqp : blt q p = true) by (apply blt_lt; rewrite bcmp_antisym, E; reflexivity).
    apply flat_map_ext_on. intros r Hr. symmetry. apply time_or_skip. intros ->.
    destruct Hr as [->|Hr]; [rewrite blt_irrefl in Hqp; discriminate|].
    specialize (H1 q Hr). apply blt_asym in H1. congruence.
Qed.

Lemma get_time_participants h peers : ssorted peers ->
  k_local (crun h) :: times_of peers (k_remotes (crun h)) = map (shows h) (participants h peers).
Proof.
  intros Hs. rewrite times_of_spec by auto using crun_sorted. unfold participants. cbn [map].
  f_equal; [unfold shows; now rewrite crun_local|]. clear Hs.
  induction peers as [|p peers IH]; [reflexivity|]. cbn [flat_map map filter]. unfold time_or at 1.
  rewrite crun_remote. destruct (lookup p _) eqn:E; cbn [map app]; [|exact IH]. rewrite IH. f_equal.
  unfold shows. now rewrite crun_remote, E.
Qed.

Lemma set_inter_In a b : ssorted a -> ssorted b -> forall x, In x (set_inter a b) <-> In x a /\ In x b.
Proof.
  revert b. induction a as [|p a IH]; intros b Ha Hb x; [destruct b; cbn; tauto|].
  cbn in Ha. destruct Ha as [A1 A2]. induction b as [|q b IHb]; [cbn; tauto|].
  cbn in Hb. destruct Hb as [B1 B2]. cbn [set_inter]. destruct (bcmp p q) eqn:E.
  - apply bcmp_eq in E. subst q. cbn [In]. rewrite IH by assumption. split.
    + intros [->|[H1 H2]]; auto.
    + intros [[->|H1] [H2|H2]]; auto.
  - rewrite IH by (auto; cbn; auto). cbn [In]. split; [tauto|]. intros [[->|H1] H2]; [|tauto]. exfalso.
    destruct H2 as [->|H2]; [rewrite bcmp_refl in E; discriminate|].
    specialize (B1 x H2). apply blt_lt in E. pose proof (blt_trans _ _ _ E B1) as Hc. rewrite blt_irrefl in Hc; discriminate.
  - change ((fix go (b0 : pset) : pset := match b0 with [] => [] | y :: b' =>
        match bcmp p y with Eq => p :: set_inter a b' | Lt => set_inter a b0 | Gt => go b' end end) b) with (set_inter (p :: a) b).
    rewrite (IHb B2). cbn [In]. split; [tauto|]. intros [H1 [->|H2]]; [|tauto]. exfalso.
    assert (Hqp : blt x p = true) by (apply blt_lt; rewrite bcmp_antisym, E; reflexivity).
    destruct H1 as [->|H1]; [rewrite blt_irrefl in Hqp; discriminate|].
    specialize (A1 x H1). apply blt_asym in A1. congruence.
Qed.
Lemma set_inter_sorted a b : ssorted a -> ssorted b -> ssorted (set_inter a b).
Proof.
  revert b. induction a as [|p a IH]; intros b Ha Hb; [destruct b; exact I|].
  pose proof Ha as Ha0. cbn in Ha. destruct Ha as [A1 A2]. induction b as [|q b IHb]; [exact I|].
  pose proof Hb as Hb0. cbn in Hb. destruct Hb as [B1 B2]. cbn [set_inter]. destruct (bcmp p q) eqn:E.
  - cbn [ssorted]. split; [|now apply IH]. intros r Hr. apply set_inter_In in Hr; [|assumption|assumption]. apply A1, Hr.
  - now apply IH.
  - now apply IHb.
Qed.
