From Verif Require Import Timeout TimeoutSpec HistSpec Hist.
Open Scope Z_scope.

Section P.
Context {F : Type}.
Notation exec := (exec (@tstep F)).

Definition ids (s : timeouts F) : list Z := map (fun x => snd (fst x)) (t_set s) ++ map fst (t_running s).
(* ids are those handed out, each waiting once; everything set is for the future *)
Definition ok (s : timeouts F) : Prop :=
  NoDup (ids s) /\ (forall i, In i (ids s) -> 1 <= i <= t_gen s) /\ 0 <= t_gen s /\ 0 <= t_ticks s /\
  forall x, In x (t_set s) -> t_ticks s < fst (fst x).

Lemma take_nth_perm {A} k : forall (l : list A) x r, take_nth k l = Some (x, r) ->
  exists a b, l = a ++ x :: b /\ r = a ++ b.
Proof.
  induction k as [|k IH]; intros [|y l] x r; cbn; try discriminate.
  - intros E; injection E as -> ->. now exists [], r.
  - destruct (take_nth k l) as [[z r']|] eqn:E; [|discriminate]. intros E'; injection E' as -> <-.
    destruct (IH _ _ _ E) as [a [b [-> ->]]]. now exists (y :: a), b.
Qed.
Lemma filter_split_in {A} (f : A -> bool) l x : In x l -> In x (filter f l) \/ In x (filter (fun y => negb (f y)) l).
Proof. intros H. destruct (f x) eqn:E; [left|right]; apply filter_In; rewrite ?E; auto. Qed.
Lemma NoDup_map_filter {A B} (g : A -> B) (f : A -> bool) l : NoDup (map g l) -> NoDup (map g (filter f l)).
Proof.
  induction l as [|x l IH]; cbn; intros H; [constructor|]. apply NoDup_cons_iff in H as [H1 H2].
  destruct (f x); cbn; [|auto]. constructor; [|auto]. intros Hin. apply H1. apply in_map_iff in Hin as [y [<- Hy]].
  apply filter_In in Hy. apply in_map. tauto.
Qed.
Lemma NoDup_app_iff' {A} (a b : list A) : NoDup (a ++ b) <-> NoDup a /\ NoDup b /\ (forall x, In x a -> ~ In x b).
Proof.
  induction a as [|x a IH]; cbn; [split; [intros; repeat split; auto; constructor|tauto]|].
  rewrite !NoDup_cons_iff, IH, in_app_iff. split.
  - intros [H1 [H2 [H3 H4]]]. repeat split; auto. intros y [<-|Hy]; auto.
  - intros [[H1 H2] [H3 H4]]. repeat split; auto. intros [H|H]; [auto|]. exact (H4 x (or_introl eq_refl) H).
Qed.

Lemma ok_init : ok no_timeouts.
Proof. repeat split; cbn; try lia; try constructor; contradiction. Qed.
Lemma ok_step s o s' r : ok s -> tstep s o = Ret (s', r) -> ok s'.
Proof.
  intros [H1 [H2 [H3 [H4 H5]]]] E. unfold ids in *. destruct o as [d f|a i| |k]; cbn in E.
  - unfold set_timeout in E. destruct (_ <? _); [discriminate|].
    destruct (INT64_MAX <? _) eqn:Ei in E; [discriminate|]. injection E as <- <-. unfold ok, ids. cbn.
    rewrite map_app, <- app_assoc. cbn. split; [|split; [|split; [lia|split; [assumption|]]]].
    + apply NoDup_app_iff' in H1 as [A [B C]]. apply NoDup_app_iff'. split; [assumption|]. split.
      * constructor; [|assumption]. intros Hin. specialize (H2 (t_gen s + 1) ltac:(apply in_or_app; auto)). lia.
      * intros x Hx [<-|Hr]; [|now apply (C x)]. specialize (H2 (t_gen s + 1) ltac:(apply in_or_app; auto)). lia.
    + intros i Hi. apply in_app_or in Hi as [Hi|[<-|Hi]]; [| lia |].
      * specialize (H2 i ltac:(apply in_or_app; auto)); lia.
      * specialize (H2 i ltac:(apply in_or_app; auto)); lia.
    + intros x Hx. apply in_app_or in Hx as [Hx|[<-|[]]]; [auto|]. cbn. destruct (_ <=? _) eqn:Ed; lia.
  - injection E as <- <-. unfold ok, ids, cancel_timeout. cbn. split; [|split; [|split; [lia|split; [assumption|]]]].
    + apply NoDup_app_iff' in H1 as [A [B C]]. apply NoDup_app_iff'. split; [now apply NoDup_map_filter|]. split; [assumption|].
      intros x Hx. apply C. apply in_map_iff in Hx as [y [<- Hy]]. apply filter_In in Hy. apply in_map_iff. exists y; tauto.
    + intros j Hj. apply H2. apply in_app_or in Hj as [Hj|Hj]; apply in_or_app; [left|auto].
      apply in_map_iff in Hj as [y [<- Hy]]. apply filter_In in Hy. apply in_map_iff. exists y; tauto.
    + intros x Hx. apply filter_In in Hx. now apply H5.
  - unfold timer_tick in E. destruct (_ <=? _) in E; [discriminate|]. injection E as <- <-. unfold ok, ids. cbn.
    apply NoDup_app_iff' in H1 as [A [B C]].
    split; [|split; [|split; [lia|split; [lia|]]]].
    + rewrite map_app, map_map. cbn. apply NoDup_app_iff'. split; [now apply NoDup_map_filter|]. split.
      * apply NoDup_app_iff'. split; [assumption|]. split; [now apply NoDup_map_filter|].
        intros x Hx Hy. apply in_map_iff in Hy as [y [<- Hy]]. apply filter_In in Hy as [Hy _].
        apply (C (snd (fst y))); [apply in_map_iff; exists y; auto|assumption].
      * intros x Hx Hy. apply in_map_iff in Hx as [u [<- Hu]]. apply filter_In in Hu as [Hu Eu].
        apply in_app_or in Hy as [Hy|Hy]; [apply (C (snd (fst u))); [apply in_map_iff; exists u; auto|assumption]|].
        apply in_map_iff in Hy as [v [Ev Hv]]. apply filter_In in Hv as [Hv Ev'].
        assert (u = v); [|subst; rewrite Ev' in Eu; discriminate].
        clear -A Hu Hv Ev. induction (t_set s) as [|z l IH]; [contradiction|]. cbn in A. apply NoDup_cons_iff in A as [A1 A2].
        destruct Hu as [->|Hu], Hv as [->|Hv]; auto.
        -- exfalso. apply A1. rewrite <- Ev. apply in_map_iff. exists v; auto.
        -- exfalso. apply A1. rewrite Ev. apply in_map_iff. exists u; auto.
    + intros i Hi. apply H2. apply in_app_or in Hi as [Hi|Hi]; [apply in_or_app; left|].
      * apply in_map_iff in Hi as [y [<- Hy]]. apply filter_In in Hy. apply in_map_iff. exists y; tauto.
      * rewrite map_app, map_map in Hi. cbn in Hi. apply in_app_or in Hi as [Hi|Hi]; apply in_or_app; [auto|left].
        apply in_map_iff in Hi as [y [<- Hy]]. apply filter_In in Hy. apply in_map_iff. exists y; tauto.
    + intros x Hx. apply filter_In in Hx as [Hx Ex]. specialize (H5 x Hx). destruct (_ =? _) eqn:Eq in Ex; [discriminate|]. lia.
  - injection E as E. unfold run_one in E. destruct (take_nth k (t_running s)) as [[[i f] r']|] eqn:Et.
    2: { injection E as <- <-. repeat split; auto; apply H2; auto. }
    injection E as <- <-. destruct (take_nth_perm _ _ _ _ Et) as [u [v [Eu ->]]]. unfold ok, ids; cbn.
    rewrite Eu in *. rewrite !map_app in *. cbn in *.
    split; [|split; [|split; [lia|split; [assumption|assumption]]]].
    + rewrite app_assoc in *. now apply NoDup_remove_1 in H1.
    + intros j Hj. apply H2. rewrite !in_app_iff in *. cbn. tauto.
Qed.
Lemma ok_exec h : forall s s' rs, ok s -> exec s h = Ret (s', rs) -> ok s'.
Proof.
  induction h as [|o h IH]; intros s s' rs H E; cbn in E; [injection E as <- <-; assumption|].
  destruct (tstep s o) as [[s1 r]|] eqn:Es; [|discriminate]. destruct (exec s1 h) as [[s2 rs2]|] eqn:Eh; [|discriminate].
  injection E as <- <-. eauto using ok_step.
Qed.

Lemma ticks_step (s : timeouts F) o s' r : tstep s o = Ret (s', r) -> t_ticks s' = t_ticks s + ticks_in [o] /\ t_gen s <= t_gen s'.
Proof.
  destruct o as [d f|a i| |k]; cbn; intros E.
  - unfold set_timeout in E. destruct (_ <? _) in E; [discriminate|]. destruct (INT64_MAX <? _) in E; [discriminate|]. injection E as <- <-. cbn. lia.
  - injection E as <- <-. cbn; lia.
  - unfold timer_tick in E. destruct (_ <=? _); [discriminate|]. injection E as <- <-. cbn; lia.
  - injection E as E. unfold run_one in E. destruct (take_nth _ _) as [[[i f] r']|]; injection E as <- <-; cbn; lia.
Qed.
Lemma ticks_in_cons o h : ticks_in (F := F) (o :: h) = ticks_in [o] + ticks_in h.
Proof. unfold ticks_in. rewrite !count_cons. change (count _ []) with 0%N. lia. Qed.
Lemma ticks_in_app h1 h2 : ticks_in (F := F) (h1 ++ h2) = ticks_in h1 + ticks_in h2.
Proof. unfold ticks_in. rewrite count_app. lia. Qed.
Lemma ticks_in_nonneg h : 0 <= ticks_in (F := F) h.
Proof. unfold ticks_in; lia. Qed.
Lemma ticks_exec h : forall s s' rs, exec s h = Ret (s', rs) -> t_ticks s' = t_ticks s + ticks_in h.
Proof.
  induction h as [|o h IH]; intros s s' rs E; cbn in E; [injection E as <- <-; cbn; lia|].
  destruct (tstep s o) as [[s1 r]|] eqn:Es; [|discriminate]. destruct (exec s1 h) as [[s2 rs2]|] eqn:Eh; [|discriminate].
  injection E as <- <-. rewrite ticks_in_cons. apply ticks_step in Es as [Es _]. apply IH in Eh. lia.
Qed.

(* where the timeout with this id is *)
Definition waiting (s : timeouts F) (at_tick id : Z) (f : F) : Prop := In (at_tick, id, f) (t_set s) /\ ~ In id (map fst (t_running s)).
Definition started (s : timeouts F) (id : Z) (f : F) : Prop := In (id, f) (t_running s) /\ ~ In id (map (fun x => snd (fst x)) (t_set s)).
Definition gone (s : timeouts F) (id : Z) : Prop := ~ In id (ids s) /\ id <= t_gen s.

Lemma runs_cons id r rs : runs (F := F) id (r :: rs) = runs id [r] ++ runs id rs.
Proof. unfold runs; cbn. now rewrite app_nil_r. Qed.

Lemma ok_inj s x y : ok s -> In x (t_set s) -> In y (t_set s) -> snd (fst x) = snd (fst y) -> x = y.
Proof.
  intros [H _] Hx Hy E. unfold ids in H. apply NoDup_app_iff' in H as [H _].
  induction (t_set s) as [|z l IH]; [contradiction|]. cbn in H. apply NoDup_cons_iff in H as [H1 H2].
  destruct Hx as [->|Hx], Hy as [->|Hy]; auto.
  - exfalso. apply H1. rewrite E. apply in_map_iff. exists y; auto.
  - exfalso. apply H1. rewrite <- E. apply in_map_iff. exists x; auto.
Qed.
Lemma ok_running_inj s i f g : ok s -> In (i, f) (t_running s) -> In (i, g) (t_running s) -> f = g.
Proof.
  intros [H _] Hx Hy. unfold ids in H. apply NoDup_app_iff' in H as [_ [H _]].
  induction (t_running s) as [|[z w] l IH]; [contradiction|]. cbn in H. apply NoDup_cons_iff in H as [H1 H2].
  destruct Hx as [Ex|Hx], Hy as [Ey|Hy]; auto; try congruence.
  - exfalso. apply H1. injection Ex as -> ->. apply in_map_iff. exists (i, g); auto.
  - exfalso. apply H1. injection Ey as -> ->. apply in_map_iff. exists (i, f); auto.
Qed.

Lemma gone_step (s : timeouts F) o s' r id : ok s -> 1 <= id -> gone s id -> tstep s o = Ret (s', r) -> gone s' id /\ runs id [r] = [].
Proof.
  intros Hok Hid [H1 H2] E. destruct (ticks_step _ _ _ _ E) as [_ Hg]. unfold gone, ids in *. rewrite in_app_iff in H1.
  destruct o as [d f|a i| |k]; cbn in E.
  - unfold set_timeout in E. destruct (_ <? _) in E; [discriminate|]. destruct (INT64_MAX <? _) in E; [discriminate|]. injection E as <- <-.
    cbn in *. split; [|reflexivity]. rewrite map_app, !in_app_iff. cbn. split; [|lia]. intros [[H|[H|[]]]|H]; try tauto. lia.
  - injection E as <- <-. cbn in *. split; [|reflexivity]. rewrite in_app_iff. split; [|lia]. intros [H|H]; [|tauto].
    apply in_map_iff in H as [y [<- Hy]]. apply filter_In in Hy. apply H1. left. apply in_map_iff. exists y; tauto.
  - unfold timer_tick in E. destruct (_ <=? _); [discriminate|]. injection E as <- <-. cbn in *. split; [|reflexivity].
    rewrite map_app, map_map, !in_app_iff. cbn. split; [|lia].
    intros [H|[H|H]]; [|tauto|]; apply in_map_iff in H as [y [<- Hy]]; apply filter_In in Hy; apply H1; left; apply in_map_iff; exists y; tauto.
  - injection E as E. unfold run_one in E. destruct (take_nth k (t_running s)) as [[[i f] r']|] eqn:Et.
    2: { injection E as <- <-. split; [split; [rewrite in_app_iff; assumption|lia]|reflexivity]. }
    injection E as <- <-. destruct (take_nth_perm _ _ _ _ Et) as [u [v [Eu ->]]]. cbn in *. rewrite Eu in *. rewrite !map_app, !in_app_iff in *. cbn in *.
    split; [split; [tauto|lia]|]. destruct (i =? id) eqn:Ei; [exfalso; apply H1; right; right; left; lia|reflexivity].
Qed.
Lemma gone_exec h : forall s s' rs id, ok s -> 1 <= id -> gone s id -> exec s h = Ret (s', rs) -> gone s' id /\ runs id rs = [].
Proof.
  induction h as [|o h IH]; intros s s' rs id Hok Hid Hg E; cbn in E; [injection E as <- <-; auto|].
  destruct (tstep s o) as [[s1 r]|] eqn:Es; [|discriminate]. destruct (exec s1 h) as [[s2 rs2]|] eqn:Eh; [|discriminate].
  injection E as <- <-. destruct (gone_step _ _ _ _ _ Hok Hid Hg Es) as [H1 H2].
  destruct (IH _ _ _ _ (ok_step _ _ _ _ Hok Es) Hid H1 Eh) as [H3 H4]. split; [assumption|]. rewrite runs_cons, H2, H4. reflexivity.
Qed.

Lemma started_step s o s' r id f : ok s -> started s id f -> tstep s o = Ret (s', r) ->
  (started s' id f /\ runs id [r] = []) \/ (gone s' id /\ runs id [r] = [f]).
Proof.
  intros Hok [H1 H2] E. pose proof Hok as [Ho1 [Ho2 [Ho3 _]]].
  assert (Hid : 1 <= id <= t_gen s). { apply Ho2. unfold ids. apply in_or_app; right. apply in_map_iff. exists (id, f); auto. }
  destruct (ticks_step _ _ _ _ E) as [_ Hg]. destruct o as [d g|a i| |k]; cbn in E.
  - unfold set_timeout in E. destruct (_ <? _) in E; [discriminate|]. destruct (INT64_MAX <? _) in E; [discriminate|]. injection E as <- <-. left.
    cbn in *. split; [|reflexivity]. split; cbn; [assumption|]. rewrite map_app, in_app_iff; cbn. intros [H|[H|[]]]; [tauto|lia].
  - injection E as <- <-. left. split; [|reflexivity]. split; [assumption|]. cbn. intros H. apply H2.
    apply in_map_iff in H as [y [<- Hy]]. apply filter_In in Hy. apply in_map_iff. exists y; tauto.
  - unfold timer_tick in E. destruct (_ <=? _); [discriminate|]. injection E as <- <-. left. split; [|reflexivity].
    split; cbn; [apply in_or_app; now left|]. intros H. apply H2.
    apply in_map_iff in H as [y [<- Hy]]. apply filter_In in Hy. apply in_map_iff. exists y; tauto.
  - injection E as E. unfold run_one in E. destruct (take_nth k (t_running s)) as [[[i g] r']|] eqn:Et.
    2: { injection E as <- <-. left. split; [split; assumption|reflexivity]. }
    injection E as <- <-. destruct (take_nth_perm _ _ _ _ Et) as [u [v [Eu ->]]]. cbn in *.
    destruct (i =? id) eqn:Ei.
    + right. assert (i = id) by lia. subst i.
      assert (g = f). { apply (ok_running_inj s id g f Hok); [rewrite Eu; apply in_elt|assumption]. } subst g.
      split; [|reflexivity]. split; cbn; [|lia]. unfold ids; cbn. rewrite in_app_iff. intros [H|H]; [tauto|].
      unfold ids in Ho1. apply NoDup_app_iff' in Ho1 as [_ [Ho1 _]]. rewrite Eu, map_app in Ho1. cbn in Ho1.
      apply NoDup_remove_2 in Ho1. now rewrite <- map_app in Ho1.
    + left. split; [|reflexivity]. split; cbn; [|assumption]. rewrite Eu in H1. apply in_app_or in H1 as [H|[H|H]]; apply in_or_app; auto.
      injection H as -> _. lia.
Qed.
(* a timeout that was started runs exactly once, unless it has not come to it yet *)
Lemma started_exec h : forall s s' rs id f, ok s -> started s id f -> exec s h = Ret (s', rs) ->
  (started s' id f /\ runs id rs = []) \/ (gone s' id /\ runs id rs = [f]).
Proof.
  induction h as [|o h IH]; intros s s' rs id f Hok Hs E; cbn in E; [injection E as <- <-; auto|].
  destruct (tstep s o) as [[s1 r]|] eqn:Es; [|discriminate]. destruct (exec s1 h) as [[s2 rs2]|] eqn:Eh; [|discriminate].
  injection E as <- <-. pose proof (ok_step _ _ _ _ Hok Es) as Hok1.
  assert (Hid : 1 <= id). { apply Hok. unfold ids. apply in_or_app; right. apply in_map_iff. exists (id, f). split; [reflexivity|apply Hs]. }
  rewrite runs_cons. destruct (started_step _ _ _ _ _ _ Hok Hs Es) as [[H1 ->]|[H1 ->]].
  - apply (IH _ _ _ _ _ Hok1 H1 Eh).
  - right. destruct (gone_exec _ _ _ _ _ Hok1 Hid H1 Eh) as [H2 ->]. auto.
Qed.

(* waiting for a tick that is still ahead *)
Lemma waiting_step s o s' r a id f : ok s -> waiting s a id f -> tstep s o = Ret (s', r) ->
  runs id [r] = [] /\
  ((o = TCancel a id /\ gone s' id) \/
   (o <> TCancel a id /\ ((t_ticks s' < a /\ waiting s' a id f) \/ (o = TTick /\ t_ticks s' = a /\ started s' id f)))).
Proof.
  intros Hok [H1 H2] E. pose proof Hok as [Ho1 [Ho2 [Ho3 [Ho4 Ho5]]]].
  assert (Hin : In id (map (fun x => snd (fst x)) (t_set s))) by (apply in_map_iff; exists (a, id, f); auto).
  assert (Hid : 1 <= id <= t_gen s). { apply Ho2. unfold ids. apply in_or_app; now left. }
  pose proof (Ho5 _ H1) as Ha. cbn in Ha.
  destruct o as [d g|a' i| |k]; cbn in E.
  - unfold set_timeout in E. destruct (_ <? _) in E; [discriminate|]. destruct (INT64_MAX <? _) in E; [discriminate|]. injection E as <- <-.
    split; [reflexivity|]. right. split; [discriminate|]. left. cbn. split; [assumption|]. split; cbn; [apply in_or_app; now left|assumption].
  - injection E as <- <-. split; [reflexivity|]. destruct (Z.eq_dec i id) as [->|Hne].
    + destruct (Z.eq_dec a' a) as [->|Hna].
      * left. split; [reflexivity|]. split; cbn; [|lia]. unfold ids; cbn. rewrite in_app_iff. intros [H|H]; [|tauto].
        apply in_map_iff in H as [y [Ey Hy]]. apply filter_In in Hy as [Hy Ny].
        assert (y = (a, id, f)) by (apply (ok_inj s); auto). subst y. unfold is_at in Ny. cbn in Ny. rewrite !Z.eqb_refl in Ny. discriminate.
      * right. split; [congruence|]. left. split; [assumption|]. split; [|assumption]. cbn. apply filter_In. split; [assumption|].
        unfold is_at; cbn. destruct (a =? a') eqn:Ea; [lia|reflexivity].
    + right. split; [congruence|]. left. split; [assumption|]. split; [|assumption]. cbn. apply filter_In. split; [assumption|].
      unfold is_at; cbn. destruct (id =? i) eqn:Ea; [lia|]. now rewrite andb_false_r.
  - unfold timer_tick in E. destruct (_ <=? _) in E; [discriminate|]. injection E as <- <-. split; [reflexivity|]. right. split; [discriminate|].
    destruct (Z.eq_dec (t_ticks s + 1) a) as [Ea|Ena].
    + right. split; [reflexivity|]. split; [assumption|]. split; cbn.
      * apply in_or_app; right. apply in_map_iff. exists (a, id, f). split; [reflexivity|]. apply filter_In. split; [assumption|]. cbn. lia.
      * intros H. apply in_map_iff in H as [y [Ey Hy]]. apply filter_In in Hy as [Hy Ny].
        assert (y = (a, id, f)) by (apply (ok_inj s); auto). subst y. cbn in Ny. destruct (a =? _) eqn:Eq in Ny; [discriminate|lia].
    + left. cbn. split; [lia|]. split; cbn.
      * apply filter_In. split; [assumption|]. cbn. destruct (a =? _) eqn:Eq; [lia|reflexivity].
      * rewrite map_app, map_map, in_app_iff; cbn. intros [H|H]; [tauto|].
        apply in_map_iff in H as [y [Ey Hy]]. apply filter_In in Hy as [Hy Ny].
        assert (y = (a, id, f)) by (apply (ok_inj s); auto). subst y. cbn in Ny. lia.
  - injection E as E. unfold run_one in E. destruct (take_nth k (t_running s)) as [[[i g] r']|] eqn:Et.
    2: { injection E as <- <-. split; [reflexivity|]. right. split; [discriminate|]. left. split; [assumption|split; assumption]. }
    injection E as <- <-. destruct (take_nth_perm _ _ _ _ Et) as [u [v [Eu ->]]]. cbn in *. rewrite Eu, map_app, in_app_iff in H2. cbn in H2.
    split; [destruct (i =? id) eqn:Ei; [exfalso; apply H2; right; left; lia|reflexivity]|].
    right. split; [discriminate|]. left. split; [assumption|]. split; cbn; [assumption|]. rewrite map_app, in_app_iff. tauto.
Qed.
Lemma waiting_exec h : forall s s' rs a id f, ok s -> waiting s a id f -> exec s h = Ret (s', rs) -> t_ticks s' < a ->
  runs id rs = [] /\ ((In (TCancel a id) h /\ gone s' id) \/ (~ In (TCancel a id) h /\ waiting s' a id f)).
Proof.
  induction h as [|o h IH]; intros s s' rs a id f Hok Hw E Ht; cbn in E; [injection E as <- <-; cbn; auto|].
  destruct (tstep s o) as [[s1 r]|] eqn:Es; [|discriminate]. destruct (exec s1 h) as [[s2 rs2]|] eqn:Eh; [|discriminate].
  injection E as <- <-. pose proof (ok_step _ _ _ _ Hok Es) as Hok1. pose proof (ticks_exec _ _ _ _ Eh) as Ht1. pose proof (ticks_in_nonneg h).
  assert (Hid : 1 <= id). { apply Hok. unfold ids. apply in_or_app; left. apply in_map_iff. exists (a, id, f). split; [reflexivity|apply Hw]. }
  rewrite runs_cons. destruct (waiting_step _ _ _ _ _ _ _ Hok Hw Es) as [-> [[Ho Hg]|[Ho [[_ Hw1]|[_ [Ht2 _]]]]]].
  - destruct (gone_exec _ _ _ _ _ Hok1 Hid Hg Eh) as [H2 ->]. split; [reflexivity|]. left. split; [now left|assumption].
  - destruct (IH _ _ _ _ _ _ Hok1 Hw1 Eh Ht) as [-> [[H1 H2]|[H1 H2]]]; (split; [reflexivity|]); [left|right]; (split; [|assumption]); [now right|].
    intros [H3|H3]; [congruence|contradiction].
  - lia.
Qed.

(* --- from setting a timeout on -------------------------------------------- *)
Lemma set_waits h0 s0 rs0 d f s1 r : exec no_timeouts h0 = Ret (s0, rs0) -> tstep s0 (TSet d f) = Ret (s1, r) ->
  exists a id, r = RSet a id /\ a = t_ticks s0 + due d /\ ok s1 /\ t_ticks s1 = t_ticks s0 /\ waiting s1 a id f /\ runs id rs0 = [] /\ 1 <= id.
Proof.
  intros E0 E. pose proof (ok_exec _ _ _ _ ok_init E0) as Hok. pose proof (ok_step _ _ _ _ Hok E) as Hok1.
  cbn in E. unfold set_timeout in E. destruct (_ <? _) in E; [discriminate|]. destruct (INT64_MAX <? _) in E; [discriminate|].
  injection E as <- <-. eexists _, _. split; [reflexivity|]. destruct Hok as [H1 [H2 [H3 [H4 H5]]]].
  split; [unfold due; destruct (_ <=? _) eqn:Ed; lia|]. split; [assumption|]. split; [reflexivity|].
  split; [split; cbn; [apply in_or_app; right; now left|]|split; [|lia]].
  - intros Hin. specialize (H2 (t_gen s0 + 1)). unfold ids in H2. rewrite in_app_iff in H2. specialize (H2 (or_intror Hin)). lia.
  - (* an id not handed out yet was never called *)
    assert (Hall : forall h s s' rs, ok s -> exec s h = Ret (s', rs) -> forall i f', In (RRan i f') rs -> i <= t_gen s').
    { clear. induction h as [|o h IH]; intros s s' rs Hok E i f' Hi; cbn in E; [injection E as <- <-; contradiction|].
      destruct (tstep s o) as [[s1 r]|] eqn:Es; [|discriminate]. destruct (exec s1 h) as [[s2 rs2]|] eqn:Eh; [|discriminate].
      injection E as <- <-. destruct Hi as [->|Hi]; [|eauto using ok_step].
      assert (Hg : forall h s s' rs, exec s h = Ret (s', rs) -> t_gen s <= t_gen s').
      { clear. induction h as [|o h IH]; intros s s' rs E; cbn in E; [injection E as <- <-; lia|].
        destruct (tstep s o) as [[s1 r]|] eqn:Es; [|discriminate]. destruct (exec s1 h) as [[s2 rs2]|] eqn:Eh; [|discriminate].
        injection E as <- <-. apply ticks_step in Es as [_ Es]. apply IH in Eh. lia. }
      pose proof (ticks_step _ _ _ _ Es) as [_ Hg1]. pose proof (Hg _ _ _ _ Eh).
      destruct o as [d g|a' j| |k]; cbn in Es.
      - unfold set_timeout in Es. destruct (_ <? _) in Es; [discriminate|]. destruct (INT64_MAX <? _) in Es; discriminate.
      - discriminate.
      - destruct (timer_tick s); discriminate.
      - injection Es as Es. unfold run_one in Es. destruct (take_nth k (t_running s)) as [[[j g] r']|] eqn:Et; [|discriminate].
        injection Es as <- -> ->. destruct (take_nth_perm _ _ _ _ Et) as [u [v [Eu _]]]. destruct Hok as [_ [H2 _]].
        specialize (H2 i). unfold ids in H2. rewrite in_app_iff, Eu, map_app, in_app_iff in H2. cbn in H2, H. specialize (H2 ltac:(tauto)). lia. }
    unfold runs. assert (Hn : forall i f', In (RRan i f') rs0 -> i <> t_gen s0 + 1).
    { intros i f' Hi. pose proof (Hall _ _ _ _ ok_init E0 _ _ Hi). lia. }
    clear -Hn. induction rs0 as [|r rs IH]; [reflexivity|]. cbn. rewrite IH by (intros; apply (Hn i f'); now right).
    destruct r as [| i f'|]; try reflexivity. pose proof (Hn i f' (or_introl eq_refl)). destruct (i =? _) eqn:E; [lia|reflexivity].
Qed.

(* before its tick a timeout does not run; cancelled by then, it never does; not
   cancelled, it is run once from that tick on *)
Lemma timeout_life h0 d f h1 h2 s rs0 a id rs1 rs2 : due d = ticks_in h1 + 1 ->
  exec no_timeouts (h0 ++ TSet d f :: h1 ++ TTick :: h2) = Ret (s, rs0 ++ RSet a id :: rs1 ++ rs2) ->
  length rs0 = length h0 -> length rs1 = length h1 ->
  runs id rs0 = [] /\ runs id rs1 = [] /\
  (In (TCancel a id) h1 -> runs id rs2 = []) /\
  (~ In (TCancel a id) h1 -> (runs id rs2 = [f] \/ (runs id rs2 = [] /\ In (id, f) (t_running s)))).
Proof.
  intros Hd E L0 L1. rewrite exec_app in E. destruct (exec no_timeouts h0) as [[s0 q0]|] eqn:E0; [|discriminate].
  cbn [Hist.exec] in E. destruct (tstep s0 (TSet d f)) as [[s1 r]|] eqn:Es; [|discriminate].
  rewrite exec_app in E. destruct (exec s1 h1) as [[s2 q1]|] eqn:E1; [|discriminate].
  destruct (exec s2 (TTick :: h2)) as [[s3 q2]|] eqn:E2; [|discriminate].
  assert (Es3 : s3 = s /\ q0 ++ r :: q1 ++ q2 = rs0 ++ RSet a id :: rs1 ++ rs2).
  { injection E as -> ->. auto. } destruct Es3 as [-> Eq].
  pose proof (exec_length _ _ _ _ _ E0) as Lq0. pose proof (exec_length _ _ _ _ _ E1) as Lq1.
  assert (Hsplit : forall (x y u v : list (tres F)), length x = length y -> x ++ u = y ++ v -> x = y /\ u = v).
  { clear. induction x as [|z x IH]; intros [|w y] u v Hl He; try discriminate; [auto|]. cbn in *. injection He as -> He.
    destruct (IH y u v ltac:(lia) He) as [-> ->]. auto. }
  apply Hsplit in Eq as [-> Eq]; [|lia]. injection Eq as -> Eq. apply Hsplit in Eq as [-> ->]; [|lia].
  destruct (set_waits _ _ _ _ _ _ _ E0 Es) as [a' [id' [Er [Ha [Hok1 [Ht1 [Hw [Hr0 Hid]]]]]]]]. injection Er as <- <-.
  pose proof (ticks_exec _ _ _ _ E1) as Ht2.
  assert (Hlt : t_ticks s2 < a) by (rewrite Ht2, Ht1; lia).
  destruct (waiting_exec _ _ _ _ _ _ _ Hok1 Hw E1 Hlt) as [Hr1 Hcase].
  pose proof (ok_exec _ _ _ _ Hok1 E1) as Hok2.
  split; [assumption|]. split; [assumption|]. destruct Hcase as [[Hin Hg]|[Hin Hw2]].
  - split; [|contradiction]. intros _. apply (gone_exec _ _ _ _ _ Hok2 Hid Hg E2).
  - split; [contradiction|]. intros _.
    cbn [Hist.exec] in E2. destruct (tstep s2 TTick) as [[s4 r4]|] eqn:E4; [|discriminate].
    destruct (exec s4 h2) as [[s5 q5]|] eqn:E5; [|discriminate]. injection E2 as -> <-.
    destruct (waiting_step _ _ _ _ _ _ _ Hok2 Hw2 E4) as [Hr4 [[Ho _]|[_ [[Hlt4 _]|[_ [_ Hs4]]]]]]; [discriminate| |].
    + exfalso. pose proof (ticks_step _ _ _ _ E4) as [Ht4 _]. change (ticks_in [TTick]) with 1 in Ht4. lia.
    + rewrite runs_cons, Hr4. cbn [app]. pose proof (ok_step _ _ _ _ Hok2 E4) as Hok4.
      destruct (started_exec _ _ _ _ _ _ Hok4 Hs4 E5) as [[H1 ->]|[_ ->]]; [right; split; [reflexivity|apply H1]|now left].
Qed.
(* short of its tick, it does not run at all *)
Lemma timeout_early h0 d f h1 s rs0 a id rs1 : ticks_in h1 < due d ->
  exec no_timeouts (h0 ++ TSet d f :: h1) = Ret (s, rs0 ++ RSet a id :: rs1) -> length rs0 = length h0 ->
  runs id rs1 = [].
Proof.
  intros Hd E L0. rewrite exec_app in E. destruct (exec no_timeouts h0) as [[s0 q0]|] eqn:E0; [|discriminate].
  cbn [Hist.exec] in E. destruct (tstep s0 (TSet d f)) as [[s1 r]|] eqn:Es; [|discriminate].
  destruct (exec s1 h1) as [[s2 q1]|] eqn:E1; [|discriminate].
  assert (Eq : q0 ++ r :: q1 = rs0 ++ RSet a id :: rs1) by congruence.
  pose proof (exec_length _ _ _ _ _ E0) as Lq0.
  assert (Hsplit : forall (x y u v : list (tres F)), length x = length y -> x ++ u = y ++ v -> x = y /\ u = v).
  { clear. induction x as [|z x IH]; intros [|w y] u v Hl He; try discriminate; [auto|]. cbn in *. injection He as -> He.
    destruct (IH y u v ltac:(lia) He) as [-> ->]. auto. }
  apply Hsplit in Eq as [-> Eq]; [|lia]. injection Eq as -> ->.
  destruct (set_waits _ _ _ _ _ _ _ E0 Es) as [a' [id' [Er [Ha [Hok1 [Ht1 [Hw _]]]]]]]. injection Er as <- <-.
  apply (waiting_exec _ _ _ _ _ _ _ Hok1 Hw E1). rewrite (ticks_exec _ _ _ _ E1), Ht1. lia.
Qed.
End P.
