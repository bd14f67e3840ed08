From Verif Require Import Base Cpu CpuSpec.
Open Scope N_scope.

Lemma spent_snoc c e : forall evs secs since,
  spent c secs since (evs ++ [e]) = spent c secs since evs +
    match fold_left after evs secs with
    | Some d :: _ => if d =? c then time e - last_time since evs else 0
    | _ => 0
    end.
Proof.
  induction evs as [|x evs IH]; intros secs since; cbn [app spent fold_left last_time].
  - lia.
  - rewrite IH. unfold last_time. cbn [fold_left]. lia.
Qed.
Lemma onward_snoc e : forall evs since, onward since (evs ++ [e]) ->
  onward since evs /\ last_time since evs <= time e.
Proof.
  induction evs as [|x evs IH]; intros since; cbn.
  - intros [H _]. auto.
  - intros [H H0]. destruct (IH _ H0) as [A B]. unfold last_time in *. cbn. auto.
Qed.
Lemma last_snoc e evs since : last_time since (evs ++ [e]) = time e.
Proof. unfold last_time. now rewrite fold_left_app. Qed.
Lemma open_snoc e evs : open_ (evs ++ [e]) = after (open_ evs) e.
Proof. unfold open_. now rewrite fold_left_app. Qed.

Lemma sub64_mod a b : b <= a -> sub64 (a mod 2 ^ 64) (b mod 2 ^ 64) = (a - b) mod 2 ^ 64.
Proof.
  intros H. unfold sub64. set (M := 2 ^ 64). assert (HM : M <> 0) by (unfold M; discriminate).
  pose proof (N.mod_upper_bound b M HM) as Hb.
  pose proof (N.div_mod a M HM) as Ea. pose proof (N.div_mod b M HM) as Eb.
  set (qa := a / M) in *. set (qb := b / M) in *. set (ra := a mod M) in *. set (rb := b mod M) in *.
  pose proof (N.mod_upper_bound a M HM) as Ha. fold ra in Ha.
  assert (Q : qb <= qa). { destruct (N.le_gt_cases qb qa); auto. nia. }
  symmetry. destruct (N.le_gt_cases rb ra) as [G|G].
  - replace (a - b) with ((ra - rb) + (qa - qb) * M) by nia.
    replace (ra + M - rb) with ((ra - rb) + 1 * M) by nia.
    now rewrite !N.mod_add.
  - assert (qb + 1 <= qa) by nia.
    replace (a - b) with ((ra + M - rb) + (qa - qb - 1) * M) by nia.
    now rewrite !N.mod_add.
Qed.

(* What a context holds: its open sections, and the innermost runs since the
   last event. *)
Definition holds (evs : list event) (k : ctx) : Prop :=
  map m_counter k = open_ evs /\
  match k with [] => True | m :: _ => m_ticks m = rdtsc (last_time 0 evs) end.

Definition part (c i : N) (tr : list (N * event)) : N := spent c [] 0 (of_ i tr).

Lemma of_snoc i tr x : of_ i (tr ++ [x]) = if fst x =? i then of_ i tr ++ [snd x] else of_ i tr.
Proof.
  unfold of_. rewrite filter_app, map_app. cbn [filter]. destruct (fst x =? i); [reflexivity|].
  cbn. apply app_nil_r.
Qed.

(* What the step of a context adds to counter [c]: the time since its last
   event, if it was the innermost's. *)
Lemma added c evs k cs e : holds evs k -> last_time 0 evs <= time e ->
  let r := match e with Enter o t => enter o t k cs | Leave t => leave t k cs end in
  holds (evs ++ [e]) (fst r) /\
  snd r c mod 2 ^ 64 = (cs c + match open_ evs with
                    | Some d :: _ => if d =? c then time e - last_time 0 evs else 0
                    | _ => 0 end) mod 2 ^ 64.
Proof.
  intros [H1 H2] L r. unfold holds. rewrite open_snoc, last_snoc, <- H1.
  destruct k as [|m k].
  - subst r. destruct e; cbn; rewrite N.add_0_r; auto.
  - assert (D : sub64 (rdtsc (time e)) (m_ticks m) = (time e - last_time 0 evs) mod 2 ^ 64).
    { rewrite H2. now apply sub64_mod. }
    assert (A : forall v, v = (time e - last_time 0 evs) mod 2 ^ 64 ->
      incr (m_counter m) v cs c mod 2 ^ 64 =
      (cs c + match m_counter m with
              | Some d => if d =? c then time e - last_time 0 evs else 0
              | None => 0 end) mod 2 ^ 64).
    { intros v ->. unfold incr. destruct (m_counter m) as [d|]; [|now rewrite N.add_0_r].
      rewrite (N.eqb_sym c d). destruct (d =? c); [|now rewrite N.add_0_r].
      rewrite N.mod_mod by discriminate. now rewrite N.add_mod_idemp_r by discriminate. }
    subst r. destruct e as [o t|t]; cbn [enter leave fst snd map after tl time] in *.
    + split; [split; reflexivity|]. rewrite (A _ D). destruct (m_counter m); reflexivity.
    + split.
      * destruct k as [|p k]; cbn; auto.
      * rewrite (A _ D). destruct (m_counter m); reflexivity.
Qed.

Lemma sum_one (f g : N -> N) i v : forall l, NoDup l -> In i l ->
  (forall j, j <> i -> g j = f j) -> g i = f i + v -> sum (map g l) = sum (map f l) + v.
Proof.
  induction l as [|a l IH]; intros Hn Hi Ho Hv; [destruct Hi|].
  inversion Hn as [|? ? Hna Hnl]; subst. cbn. destruct (N.eq_dec a i) as [->|Ne].
  - rewrite Hv. assert (E : map g l = map f l).
    { apply map_ext_in. intros j Hj. apply Ho. intros ->. contradiction. }
    rewrite E. unfold sum. lia.
  - destruct Hi as [->|Hi]; [contradiction|]. rewrite (Ho a Ne).
    specialize (IH Hnl Hi Ho Hv). unfold sum in *. cbn. lia.
Qed.

Lemma run_holds ids : NoDup ids -> forall tr,
  (forall x, In x tr -> In (fst x) ids) -> (forall i, onward 0 (of_ i tr)) ->
  (forall i, holds (of_ i tr) (s_ctx (run tr) i)) /\
  forall c, s_counters (run tr) c mod 2 ^ 64 = sum (map (fun i => part c i tr) ids) mod 2 ^ 64.
Proof.
  intros Hn. induction tr as [|x tr IH] using rev_ind; intros Hin Hon.
  - split; [intros i; split; exact I || reflexivity|]. intros c. cbn.
    assert (Z : forall l, sum (map (fun i => part c i []) l) = 0).
    { induction l as [|a l E]; [reflexivity|]. cbn [map sum fold_right]. unfold sum in E. rewrite E. reflexivity. }
    rewrite Z. reflexivity.
  - assert (Hon' : forall i, onward 0 (of_ i tr)).
    { intros i. specialize (Hon i). rewrite of_snoc in Hon. destruct (fst x =? i); auto.
      now apply onward_snoc in Hon as [A _]. }
    destruct IH as [IH1 IH2]; auto.
    { intros y Hy. apply Hin. apply in_or_app. now left. }
    destruct x as [i e].
    assert (L : last_time 0 (of_ i tr) <= time e).
    { specialize (Hon i). rewrite of_snoc in Hon. cbn [fst] in Hon. rewrite N.eqb_refl in Hon.
      now apply onward_snoc in Hon as [_ A]. }
    unfold run. rewrite fold_left_app. fold (run tr). cbn [fold_left]. unfold step. cbn [fst snd s_ctx s_counters].
    split.
    + intros j. rewrite of_snoc. cbn [fst snd]. rewrite (N.eqb_sym i j).
      destruct (N.eqb_spec j i) as [->|Ne]; [|apply IH1].
      exact (proj1 (added 0 _ _ (s_counters (run tr)) e (IH1 i) L)).
    + intros c.
      pose proof (proj2 (added c _ _ (s_counters (run tr)) e (IH1 i) L)) as A. rewrite A.
      set (v := match open_ (of_ i tr) with Some d :: _ => _ | _ => 0 end).
      rewrite (sum_one (fun j => part c j tr) (fun j => part c j (tr ++ [(i, e)])) i v ids Hn).
      * rewrite <- (N.add_mod_idemp_l (s_counters (run tr) c) v) by discriminate.
        rewrite IH2. now rewrite N.add_mod_idemp_l by discriminate.
      * apply (Hin (i, e)). apply in_or_app. right. now left.
      * intros j Hj. unfold part. rewrite of_snoc. cbn [fst].
        destruct (N.eqb_spec i j); [congruence|reflexivity].
      * unfold part. rewrite of_snoc. cbn [fst]. rewrite N.eqb_refl. cbn [snd].
        rewrite spent_snoc. reflexivity.
Qed.

Lemma incr_small c v cs j : (forall i, cs i < 2 ^ 64) -> incr c v cs j < 2 ^ 64.
Proof.
  intros H. unfold incr. destruct c; [|apply H]. destruct (j =? n); [|apply H].
  apply N.mod_upper_bound. discriminate.
Qed.
Lemma run_small tr : forall c, s_counters (run tr) c < 2 ^ 64.
Proof.
  induction tr as [|x tr IH] using rev_ind; intros c; [reflexivity|].
  unfold run. rewrite fold_left_app. fold (run tr). cbn [fold_left]. unfold step. cbn [s_counters].
  destruct (snd x) as [o t|t]; unfold enter, leave; destruct (s_ctx (run tr) (fst x)); cbn [snd];
    try apply IH; now apply incr_small.
Qed.

Lemma spent_total cs : NoDup cs -> forall evs secs since, onward since evs -> in_use cs secs evs ->
  sum (map (fun c => spent c secs since evs) cs) = last_time since evs - since.
Proof.
  intros Hn. assert (P : forall (f g : N -> N) l, sum (map (fun c => f c + g c) l) = sum (map f l) + sum (map g l)).
  { intros f g. induction l as [|a l IH]; [reflexivity|]. cbn. unfold sum in IH. rewrite IH. unfold sum. lia. }
  induction evs as [|e evs IH]; intros secs since Ho Hu.
  - cbn. rewrite N.sub_diag. clear. induction cs as [|a l IH]; [reflexivity|]. exact IH.
  - destruct Ho as [H1 H2]. destruct Hu as [U1 U2].
    destruct secs as [|[d|] secs]; [contradiction| |contradiction].
    cbn [spent]. rewrite (P (fun c => if d =? c then time e - since else 0)
                            (fun c => spent c (after (Some d :: secs) e) (time e) evs)).
    rewrite (IH _ _ H2 U2).
    rewrite (sum_one (fun _ => 0) (fun c => if d =? c then time e - since else 0) d (time e - since) cs); auto.
    + assert (Z : forall l : list N, sum (map (fun _ => 0) l) = 0).
      { induction l as [|a l E]; [reflexivity|]. exact E. }
      rewrite Z. unfold last_time. cbn [fold_left].
      assert (time e <= fold_left (fun _ e0 => time e0) evs (time e)).
      { clear - H2. revert H2. generalize (time e). induction evs as [|x evs IH]; cbn; intros t H; [lia|].
        destruct H as [A B]. specialize (IH _ B). lia. }
      lia.
    + intros j Hj. destruct (N.eqb_spec d j); [congruence|reflexivity].
    + now rewrite N.eqb_refl.
Qed.
