(* Proofs about requests between enclaves. *)
From Verif Require Import E2ESpec TimeoutProofs.
Open Scope Z_scope.
Notation eexec := (exec e2e_step).

Definition cancels (t : timeouts N) (l : list entry) : timeouts N :=
  fold_left (fun t x => cancel_timeout (fst (x_cancel x)) (snd (x_cancel x)) t) l t.
(* a request with a timeout still has it *)
Definition held (t : timeouts N) (x : entry) : Prop :=
  x_cancel x = (0, 0) \/ In (fst (x_cancel x), snd (x_cancel x), x_tx x) (t_set t) \/ In (snd (x_cancel x), x_tx x) (t_running t).

Record inv (h : list eop) (rs : list eres) (s : e2e) : Prop := {
  v_len : length rs = length h;
  v_ok : ok (e_time s);
  v_nodup : NoDup (map x_tx (e_out s));
  v_next : e_next s = count is_send h;
  v_num : forall h1 o h2 r tx, h = h1 ++ o :: h2 -> nth_error rs (length h1) = Some r -> r_sent r = Some tx ->
          is_send o = true /\ tx = (count is_send h1 + 1)%N;
  v_all : forall tx, (1 <= tx <= e_next s)%N -> exists to d b, asked h rs tx to d b;
  v_out : forall x, In x (e_out s) -> exists h1 d, asked_after h1 h rs (x_tx x) (x_to x) d true /\
          match d with
          | None => x_cancel x = (0, 0)
          | Some d => fst (x_cancel x) = e_ticks h1 + due d /\ 1 <= snd (x_cancel x)
          end;
  v_calls : forall tx, (waiting_for s tx -> calls tx rs = []) /\ ((tx = 0 \/ e_next s < tx)%N -> calls tx rs = []) /\
          ((1 <= tx <= e_next s)%N -> ~ waiting_for s tx -> exists w, calls tx rs = [w]);
  v_held : forall x, In x (e_out s) -> held (e_time s) x;
  v_set : forall a i tx, In (a, i, tx) (t_set (e_time s)) -> exists h1 to d, asked_after h1 h rs tx to (Some d) true /\ a = e_ticks h1 + due d;
  v_run : forall i tx, In (i, tx) (t_running (e_time s)) ->
          exists h1 to d, asked_after h1 h rs tx to (Some d) true /\ e_ticks h1 + due d <= e_ticks h;
  v_ticks : t_ticks (e_time s) = e_ticks h }.

(* --- histories ------------------------------------------------------------ *)
Lemma e_ticks_app h1 h2 : e_ticks (h1 ++ h2) = e_ticks h1 + e_ticks h2.
Proof. unfold e_ticks. rewrite count_app. lia. Qed.
Lemma e_ticks_nonneg h : 0 <= e_ticks h.
Proof. unfold e_ticks; lia. Qed.
Lemma asked_more h1 h rs tx to d b h' rs' : asked_after h1 h rs tx to d b -> asked_after h1 (h ++ h') (rs ++ rs') tx to d b.
Proof.
  intros (h2 & r & -> & E & R). exists (h2 ++ h'), r. rewrite <- app_assoc. split; [reflexivity|]. split; [|assumption].
  rewrite nth_error_app1; [assumption|]. apply nth_error_Some. congruence.
Qed.
Lemma asked_last h rs to d b tx c : length rs = length h -> asked_after h (h ++ [ESend to d b]) (rs ++ [ERes (Some tx) c]) tx to d b.
Proof.
  intros L. exists [], (ERes (Some tx) c). split; [reflexivity|]. split; [|reflexivity].
  rewrite nth_error_app2, <- L, Nat.sub_diag by lia. reflexivity.
Qed.
Lemma snoc_split {A} (h : list A) o h1 o' h2 : h ++ [o] = h1 ++ o' :: h2 ->
  (h2 = [] /\ h1 = h /\ o' = o) \/ exists h2', h2 = h2' ++ [o] /\ h = h1 ++ o' :: h2'.
Proof.
  destruct (exists_last (l := o' :: h2) ltac:(discriminate)) as [l [z E]]. rewrite E, app_assoc. intros H.
  apply app_inj_tail in H as [-> ->]. destruct l as [|y l]; cbn in E.
  - injection E as -> ->. left. now rewrite app_nil_r.
  - injection E as -> ->. right. exists l. auto.
Qed.
Lemma calls_app tx a b : calls tx (a ++ b) = calls tx a ++ calls tx b.
Proof. unfold calls. now rewrite !flat_map_app. Qed.
Lemma calls_last tx rs r : calls tx (rs ++ [r]) = calls tx rs ++ flat_map (fun c => if (fst c =? tx)%N then [snd c] else []) (r_called r).
Proof. rewrite calls_app. unfold calls at 2. cbn. now rewrite app_nil_r. Qed.

(* --- timeouts ------------------------------------------------------------- *)
Lemma ok_cancel (t : timeouts N) a i : ok t -> ok (cancel_timeout a i t).
Proof. intros H. apply (ok_step t (TCancel a i) _ _ H eq_refl). Qed.
Lemma in_cancels l : forall t x, In x (t_set (cancels t l)) -> In x (t_set t).
Proof. induction l as [|y l IH]; intros t x H; [assumption|]. apply IH in H. cbn in H. now apply filter_In in H as [H _]. Qed.
Lemma cancels_same l : forall t, t_running (cancels t l) = t_running t /\ t_ticks (cancels t l) = t_ticks t.
Proof. induction l as [|y l IH]; intros t; [auto|]. apply (IH (cancel_timeout _ _ t)). Qed.
Lemma ok_cancels l : forall t, ok t -> ok (cancels t l).
Proof. induction l as [|y l IH]; intros t H; [assumption|]. apply IH, ok_cancel, H. Qed.
Lemma held_cancel t x y : ok t -> held t x -> held t y -> x_tx x <> x_tx y ->
  held (cancel_timeout (fst (x_cancel y)) (snd (x_cancel y)) t) x.
Proof.
  intros Hok Hx Hy Hne. destruct Hx as [Hx|[Hx|Hx]]; [now left| |now right; right]. right; left. cbn. apply filter_In. split; [assumption|].
  unfold is_at. cbn. destruct (_ =? _) eqn:E1; [|reflexivity]. destruct (snd (x_cancel x) =? _) eqn:E2; [|reflexivity]. exfalso.
  apply Z.eqb_eq in E1, E2. pose proof Hok as [H1 [H2 _]]. unfold ids in *.
  assert (Hin : In (snd (x_cancel x)) (map (fun x => snd (fst x)) (t_set t))).
  { apply in_map_iff. now exists (fst (x_cancel x), snd (x_cancel x), x_tx x). }
  destruct Hy as [Hy|[Hy|Hy]].
  - rewrite Hy in E2. cbn in E2. specialize (H2 (snd (x_cancel x)) ltac:(apply in_or_app; auto)). lia.
  - apply Hne. pose proof (ok_inj _ _ _ Hok Hx Hy) as X. cbn in X. specialize (X E2). now inversion X.
  - apply NoDup_app_iff' in H1 as [_ [_ C]]. apply (C _ Hin). apply in_map_iff. rewrite E2. now exists (snd (x_cancel y), x_tx y).
Qed.
Lemma held_cancels l : forall t x, ok t -> NoDup (map x_tx l) -> (forall y, In y l -> held t y) -> held t x -> ~ In (x_tx x) (map x_tx l) ->
  held (cancels t l) x.
Proof.
  induction l as [|y l IH]; intros t x Hok Hnd Hl Hx Hn; [assumption|]. cbn in Hnd, Hn. apply NoDup_cons_iff in Hnd as [N1 N2].
  cbn. apply IH; auto using ok_cancel.
  - intros z Hz. apply held_cancel; auto using in_eq, in_cons. intros E. apply N1. rewrite <- E. now apply in_map.
  - apply held_cancel; auto using in_eq.
Qed.

(* --- the table ------------------------------------------------------------ *)
Lemma find_tx_some tx l x : find_tx tx l = Some x -> In x l /\ x_tx x = tx.
Proof. intros H. apply find_some in H as [H1 H2]. split; [assumption|]. now apply N.eqb_eq. Qed.
Lemma find_tx_in tx l x : NoDup (map x_tx l) -> In x l -> x_tx x = tx -> find_tx tx l = Some x.
Proof.
  intros Hnd Hin <-. unfold find_tx. induction l as [|y l IH]; [contradiction|]. cbn in *. apply NoDup_cons_iff in Hnd as [N1 N2].
  destruct Hin as [->|Hin]; [now rewrite N.eqb_refl|]. destruct (N.eqb_spec (x_tx y) (x_tx x)) as [E|E]; [|auto].
  exfalso. apply N1. rewrite E. now apply in_map.
Qed.
Lemma find_tx_none tx l : find_tx tx l = None -> forall x, In x l -> x_tx x <> tx.
Proof. intros H x Hx E. pose proof (find_none _ _ H x Hx) as X. cbn in X. apply N.eqb_neq in X. auto. Qed.
Lemma in_erase tx l x : In x (erase_tx tx l) <-> In x l /\ x_tx x <> tx.
Proof. unfold erase_tx. rewrite filter_In, Bool.negb_true_iff, N.eqb_neq. tauto. Qed.
Lemma called_map (l : list entry) w tx : NoDup (map x_tx l) ->
  flat_map (fun c : N * why => if (fst c =? tx)%N then [snd c] else []) (map (fun x => (x_tx x, w)) l) =
  if existsb (fun x => x_tx x =? tx)%N l then [w] else [].
Proof.
  induction l as [|y l IH]; intros Hnd; [reflexivity|]. cbn in *. apply NoDup_cons_iff in Hnd as [N1 N2]. rewrite IH by assumption.
  destruct (N.eqb_spec (x_tx y) tx) as [E|E]; [|reflexivity]. cbn. destruct (existsb _ l) eqn:Ex; [|reflexivity]. exfalso.
  apply existsb_exists in Ex as [z [Hz Ez]]. apply N.eqb_eq in Ez. apply N1. rewrite E, <- Ez. now apply in_map.
Qed.

(* what the callbacks called now do to the count, when the requests taken out are
   exactly those called *)
Lemma calls_step h rs s s' r : inv h rs s -> e_next s' = e_next s ->
  (forall tx, flat_map (fun c : N * why => if (fst c =? tx)%N then [snd c] else []) (r_called r) = [] /\ (waiting_for s' tx <-> waiting_for s tx) \/
   (exists w, flat_map (fun c : N * why => if (fst c =? tx)%N then [snd c] else []) (r_called r) = [w]) /\ waiting_for s tx /\ ~ waiting_for s' tx) ->
  forall tx, (waiting_for s' tx -> calls tx (rs ++ [r]) = []) /\ ((tx = 0 \/ e_next s' < tx)%N -> calls tx (rs ++ [r]) = []) /\
          ((1 <= tx <= e_next s')%N -> ~ waiting_for s' tx -> exists w, calls tx (rs ++ [r]) = [w]).
Proof.
  intros V En H tx. rewrite En. rewrite !calls_last. destruct (v_calls _ _ _ V tx) as [C1 [C2 C3]].
  destruct (H tx) as [[-> W]|[[w ->] [W W']]].
  - rewrite app_nil_r. repeat split; auto; tauto.
  - rewrite (C1 W). cbn. repeat split; [tauto| |eauto]. intros B. exfalso.
    destruct W as [x [Hx <-]]. destruct (v_out _ _ _ V x Hx) as (h1 & d & A & _). destruct A as (h2 & r' & E & E2 & E3).
    destruct (v_num _ _ _ V _ _ _ _ _ E E2 E3) as [_ E4]. rewrite (v_next _ _ _ V), E, count_app in B.
    rewrite count_cons in B. cbn [is_send] in B. lia.
Qed.

Lemma inv_init : inv [] [] no_e2e.
Proof.
  constructor; cbn; try reflexivity; try apply ok_init; try constructor; try contradiction; try lia.
  - destruct h1; discriminate.
  - destruct h1; discriminate.
  - reflexivity.
  - split; [reflexivity|]. intros; lia.
Qed.
(* steps that send nothing *)
Lemma inv_keep h rs s o r s' : inv h rs s -> is_send o = false -> r_sent r = None -> e_next s' = e_next s -> ok (e_time s') ->
  NoDup (map x_tx (e_out s')) ->
  (forall x, In x (e_out s') -> In x (e_out s)) ->
  (forall tx, flat_map (fun c : N * why => if (fst c =? tx)%N then [snd c] else []) (r_called r) = [] /\ (waiting_for s' tx <-> waiting_for s tx) \/
   (exists w, flat_map (fun c : N * why => if (fst c =? tx)%N then [snd c] else []) (r_called r) = [w]) /\ waiting_for s tx /\ ~ waiting_for s' tx) ->
  (forall x, In x (e_out s') -> held (e_time s') x) ->
  (forall x, In x (t_set (e_time s')) -> In x (t_set (e_time s))) ->
  (forall i tx, In (i, tx) (t_running (e_time s')) -> In (i, tx) (t_running (e_time s)) \/
     exists a, In (a, i, tx) (t_set (e_time s)) /\ a <= e_ticks (h ++ [o])) ->
  t_ticks (e_time s') = e_ticks (h ++ [o]) -> inv (h ++ [o]) (rs ++ [r]) s'.
Proof.
  intros V Ho Hr En Hok Hnd Hout Hc Hh Hset Hrun Ht. constructor.
  - rewrite !app_length. cbn. now rewrite (v_len _ _ _ V).
  - assumption.
  - assumption.
  - rewrite En, (v_next _ _ _ V), count_app, count_cons, Ho. cbn. change (count is_send []) with 0%N. lia.
  - intros h1 o' h2 r' tx E N1 R. destruct (snoc_split _ _ _ _ _ E) as [(-> & -> & ->)|(h2' & -> & ->)].
    + rewrite nth_error_app2, <- (v_len _ _ _ V), Nat.sub_diag in N1 by (rewrite (v_len _ _ _ V); lia). cbn in N1. injection N1 as <-. congruence.
    + rewrite nth_error_app1 in N1 by (rewrite (v_len _ _ _ V), app_length; cbn; lia). apply (v_num _ _ _ V _ _ _ _ _ eq_refl N1 R).
  - intros tx Htx. rewrite En in Htx. destruct (v_all _ _ _ V tx Htx) as (to & d & b & h1 & A). exists to, d, b, h1. now apply asked_more.
  - intros x Hx. destruct (v_out _ _ _ V x (Hout x Hx)) as (h1 & d & A & B). exists h1, d. split; [now apply asked_more|assumption].
  - now apply (calls_step h rs s).
  - assumption.
  - intros a i tx Hi. destruct (v_set _ _ _ V a i tx (Hset _ Hi)) as (h1 & to & d & A & B). exists h1, to, d. split; [now apply asked_more|assumption].
  - intros i tx Hi. destruct (Hrun i tx Hi) as [Hi'|[a [Hi' Ha]]].
    + destruct (v_run _ _ _ V i tx Hi') as (h1 & to & d & A & B). exists h1, to, d. split; [now apply asked_more|].
      rewrite e_ticks_app. pose proof (e_ticks_nonneg [o]). lia.
    + destruct (v_set _ _ _ V a i tx Hi') as (h1 & to & d & A & B). exists h1, to, d. split; [now apply asked_more|]. lia.
  - assumption.
Qed.

Lemma wait_same (s s' : e2e) tx : e_out s' = e_out s -> waiting_for s' tx <-> waiting_for s tx.
Proof. unfold waiting_for. now intros ->. Qed.
Lemma wait_erased s s' tx tx' : e_out s' = erase_tx tx (e_out s) -> waiting_for s' tx' <-> waiting_for s tx' /\ tx' <> tx.
Proof.
  unfold waiting_for. intros ->. split.
  - intros [x [Hx <-]]. apply in_erase in Hx as [Hx Hn]. eauto.
  - intros [[x [Hx <-]] Hn]. exists x. split; [|reflexivity]. now apply in_erase.
Qed.
Lemma called_one tx w : forall tx', flat_map (fun c : N * why => if (fst c =? tx')%N then [snd c] else []) [(tx, w)] = if (tx =? tx')%N then [w] else [].
Proof. intros tx'. cbn. now rewrite app_nil_r. Qed.

Lemma fresh_tx h rs s : inv h rs s -> forall x, In x (e_out s) -> (1 <= x_tx x <= e_next s)%N.
Proof.
  intros V x Hx. destruct (v_out _ _ _ V x Hx) as (h1 & d & (h2 & r' & E & E2 & E3) & _).
  destruct (v_num _ _ _ V _ _ _ _ _ E E2 E3) as [_ ->]. rewrite (v_next _ _ _ V), E, count_app, count_cons. cbn [is_send]. lia.
Qed.

(* a request *)
Lemma inv_send h rs s to d b c l t : inv h rs s ->
  let tx := (e_next s + 1)%N in
  (* not sent, and the callback called; or put in the table *)
  (b = false /\ c = [(tx, WNotSent)] /\ l = [] /\ t = e_time s \/
   b = true /\ c = [] /\ exists x, l = [x] /\ x_tx x = tx /\ x_to x = to /\ held t x /\
     match d with
     | None => x_cancel x = (0, 0) /\ t = e_time s
     | Some d => fst (x_cancel x) = e_ticks h + due d /\ 1 <= snd (x_cancel x) /\
                 t_set t = t_set (e_time s) ++ [(fst (x_cancel x), snd (x_cancel x), tx)]
     end) ->
  ok t -> t_running t = t_running (e_time s) -> t_ticks t = t_ticks (e_time s) ->
  inv (h ++ [ESend to d b]) (rs ++ [ERes (Some tx) c]) (E2E tx (e_out s ++ l) t).
Proof.
  intros V tx Hc Hok Hrun Ht. pose proof (v_len _ _ _ V) as L. pose proof (fresh_tx _ _ _ V) as Hf.
  assert (Hset : forall x, In x (t_set (e_time s)) -> In x (t_set t)).
  { destruct Hc as [(_ & _ & _ & ->)|(_ & _ & x & _ & _ & _ & _ & Hd)]; [auto|]. intros y Hy. destruct d; [|now destruct Hd as [_ ->]].
    destruct Hd as (_ & _ & ->). apply in_or_app; auto. }
  constructor; cbn [e_next e_out e_time].
  - rewrite !app_length. cbn. now rewrite L.
  - assumption.
  - rewrite map_app. apply NoDup_app_iff'. split; [apply V|]. destruct Hc as [(_ & _ & -> & _)|(_ & _ & x & -> & Hx & _)]; [repeat split; cbn; auto; constructor|].
    cbn. split; [repeat constructor; auto|]. intros y Hy [<-|[]]. apply in_map_iff in Hy as [z [Ez Hz]]. apply Hf in Hz. lia.
  - rewrite count_app, count_cons. cbn [is_send]. change (count is_send []) with 0%N. unfold tx. rewrite (v_next _ _ _ V). lia.
  - intros h1 o' h2 r' tx' E N1 R. destruct (snoc_split _ _ _ _ _ E) as [(-> & -> & ->)|(h2' & -> & ->)].
    + rewrite nth_error_app2, <- L, Nat.sub_diag in N1 by lia. cbn in N1. injection N1 as <-. cbn in R. injection R as <-.
      split; [reflexivity|]. unfold tx. now rewrite (v_next _ _ _ V).
    + rewrite nth_error_app1 in N1 by (rewrite L, app_length; cbn; lia). apply (v_num _ _ _ V _ _ _ _ _ eq_refl N1 R).
  - intros tx' Htx. destruct (N.eq_dec tx' tx) as [->|Hn].
    + exists to, d, b, h. now apply asked_last.
    + destruct (v_all _ _ _ V tx' ltac:(lia)) as (to' & d' & b' & h1 & A). exists to', d', b', h1. now apply asked_more.
  - intros x Hx. apply in_app_or in Hx as [Hx|Hx].
    + destruct (v_out _ _ _ V x Hx) as (h1 & d' & A & B). exists h1, d'. split; [now apply asked_more|assumption].
    + destruct Hc as [(_ & _ & -> & _)|(-> & -> & y & -> & Hy & Hto & _ & Hd)]; [contradiction|]. destruct Hx as [->|[]].
      exists h, d. split; [rewrite Hy, Hto; now apply asked_last|]. destruct d; [split; apply Hd|apply Hd].
  - intros tx'. rewrite calls_last. cbn [r_called]. destruct (v_calls _ _ _ V tx') as [C1 [C2 C3]].
    assert (W : waiting_for (E2E tx (e_out s ++ l) t) tx' <-> waiting_for s tx' \/ (b = true /\ tx' = tx)).
    { unfold waiting_for; cbn [e_out]. setoid_rewrite in_app_iff. destruct Hc as [(-> & _ & -> & _)|(-> & _ & x & -> & Hx & _)]; cbn.
      - split; [intros [y [[Hy|[]] Ey]]; eauto|]. intros [[y [Hy Ey]]|[X _]]; [eauto|discriminate].
      - split; [intros [y [[Hy|[<-|[]]] Ey]]; [eauto|subst; auto]|]. intros [[y [Hy Ey]]|[_ ->]]; [eauto|]. exists x. auto. }
    assert (W1 : waiting_for s tx' -> (1 <= tx' <= e_next s)%N) by (intros [x [Hx <-]]; auto).
    rewrite W. split; [|split].
    + intros [Hw|[Hb ->]].
      * rewrite (C1 Hw). apply W1 in Hw. destruct Hc as [(_ & -> & _)|(_ & -> & _)]; [|reflexivity]. rewrite called_one.
        destruct (N.eqb_spec tx tx'); [lia|reflexivity].
      * destruct Hc as [(E & _)|(_ & -> & _)]; [congruence|]. rewrite C2 by lia. reflexivity.
    + intros Hr. rewrite C2 by lia. destruct Hc as [(_ & -> & _)|(_ & -> & _)]; [|reflexivity]. rewrite called_one.
      destruct (N.eqb_spec tx tx'); [lia|reflexivity].
    + intros Hr Hn. destruct (N.eq_dec tx' tx) as [->|Hne].
      * rewrite C2 by lia. destruct Hc as [(_ & -> & _)|(-> & _)]; [|exfalso; tauto]. rewrite called_one, N.eqb_refl. cbn. eauto.
      * destruct (C3 ltac:(lia) ltac:(tauto)) as [w ->]. destruct Hc as [(_ & -> & _)|(_ & -> & _)]; [|cbn; eauto]. rewrite called_one.
        destruct (N.eqb_spec tx tx'); [lia|cbn; eauto].
  - intros x Hx. apply in_app_or in Hx as [Hx|Hx].
    + destruct (v_held _ _ _ V x Hx) as [H|[H|H]]; [now left|right; left; auto|right; right; now rewrite Hrun].
    + destruct Hc as [(_ & _ & -> & _)|(_ & _ & y & -> & _ & _ & Hh & _)]; [contradiction|]. now destruct Hx as [->|[]].
  - intros a i tx' Hi.
    assert (Hold : In (a, i, tx') (t_set (e_time s)) -> exists (h1 : list eop) to' d', asked_after h1 (h ++ [ESend to d b]) (rs ++ [ERes (Some tx) c]) tx' to' (Some d') true /\ a = e_ticks h1 + due d').
    { intros H. destruct (v_set _ _ _ V _ _ _ H) as (h1 & to' & d' & A & B). exists h1, to', d'. split; [now apply asked_more|assumption]. }
    destruct Hc as [(_ & _ & _ & ->)|(-> & -> & x & _ & Hx & _ & _ & Hd)]; [auto|]. destruct d as [d|]; [|destruct Hd as [_ ->]; auto].
    destruct Hd as (E1 & E2 & E3). rewrite E3 in Hi. apply in_app_or in Hi as [Hi|[Hi|[]]]; [auto|]. inversion Hi; subst.
    exists h, to, d. split; [now apply asked_last|assumption].
  - intros i tx' Hi. rewrite Hrun in Hi. destruct (v_run _ _ _ V i tx' Hi) as (h1 & to' & d' & A & B). exists h1, to', d'.
    split; [now apply asked_more|]. rewrite e_ticks_app. pose proof (e_ticks_nonneg [ESend to d b]). lia.
  - rewrite Ht, (v_ticks _ _ _ V), e_ticks_app. unfold e_ticks at 3. cbn. lia.
Qed.

Lemma inv_step h rs s o s' r : inv h rs s -> e2e_step s o = Ret (s', r) -> inv (h ++ [o]) (rs ++ [r]) s'.
Proof.
  intros V E. pose proof (v_ok _ _ _ V) as Hok. pose proof (v_nodup _ _ _ V) as Hnd.
  assert (Tk : forall o, o <> ETick -> e_ticks (h ++ [o]) = t_ticks (e_time s)).
  { intros o' Ho. rewrite (v_ticks _ _ _ V), e_ticks_app. unfold e_ticks at 2. rewrite count_cons. destruct o'; cbn; try lia. congruence. }
  destruct o as [to d b|from tx| |k|id]; cbn in E.
  - (* send *)
    unfold e2e_send in E. destruct b; cbn in E.
    + destruct d as [d|].
      * destruct (set_timeout d (e_next s + 1)%N (e_time s)) as [[t [a i|i f|]]|] eqn:Es; try discriminate. injection E as <- <-.
        pose proof Es as Es'. unfold set_timeout in Es'. destruct (_ <? _) in Es'; [discriminate|]. destruct (INT64_MAX <? _) in Es'; [discriminate|].
        injection Es' as <- <- <-.
        apply inv_send; auto; [|apply (ok_step _ (TSet d (e_next s + 1)%N) _ _ Hok Es)].
        right. repeat split. eexists. repeat split.
        { right; left. cbn. apply in_or_app; right; left; reflexivity. }
        { cbn [x_cancel fst snd]. rewrite <- (v_ticks _ _ _ V). unfold due. destruct (_ <=? _) eqn:El; lia. }
        { cbn. destruct Hok as (_ & _ & X & _). lia. }
      * injection E as <- <-. apply inv_send; auto. right. repeat split. eexists. repeat split. now left.
    + injection E as <- <-. rewrite <- (app_nil_r (e_out s)). apply inv_send; auto. 
  - (* response *)
    injection E as E. unfold e2e_response in E. destruct (find_tx tx (e_out s)) as [x|] eqn:Ef.
    2: { injection E as <- <-. apply inv_keep with (s := s); auto; try apply V. left; cbn; split; [reflexivity|tauto]. symmetry; apply Tk; discriminate. }
    destruct (negb (beq (x_to x) from)).
    { injection E as <- <-. apply inv_keep with (s := s); auto; try apply V. left; cbn; split; [reflexivity|tauto]. symmetry; apply Tk; discriminate. }
    injection E as <- <-. apply find_tx_some in Ef as [Hx Ex].
    apply inv_keep with (s := s); [exact V|reflexivity|reflexivity|reflexivity|..]; cbn [e_out e_time e_next r_called r_sent].
    + now apply ok_cancel.
    + now apply NoDup_map_filter.
    + intros y Hy. now apply in_erase in Hy.
    + intros tx'. rewrite called_one. rewrite (wait_erased s) by reflexivity. destruct (N.eqb_spec tx tx') as [<-|Hn].
      * right. split; [eauto|]. split; [|tauto]. exists x; auto.
      * left. split; [reflexivity|]. split; [tauto|]. intros; split; auto.
    + intros y Hy. apply in_erase in Hy as [Hy Hn]. apply held_cancel; auto; try apply (v_held _ _ _ V); auto. congruence.
    + intros y Hy. cbn in Hy. now apply filter_In in Hy.
    + intros i tx' Hi. left. exact Hi.
    + cbn. symmetry. apply Tk. discriminate.
  - (* tick *)
    destruct (timer_tick (e_time s)) as [t|] eqn:Et0; [|discriminate]. injection E as <- <-.
    assert (Hok' : ok t) by (apply (ok_step (e_time s) TTick t RNothing Hok); cbn; now rewrite Et0).
    unfold timer_tick in Et0. destruct (_ <=? _) in Et0; [discriminate|]. injection Et0 as <-.
    assert (Et : e_ticks (h ++ [ETick]) = t_ticks (e_time s) + 1).
    { rewrite (v_ticks _ _ _ V), e_ticks_app. unfold e_ticks at 2. cbn. lia. }
    apply inv_keep with (s := s); [exact V|reflexivity|reflexivity|reflexivity|exact Hok'|exact Hnd|auto|..]; cbn [e_out e_time e_next r_called r_sent t_set t_running t_ticks].
    + intros tx. left. split; [reflexivity|]. tauto.
    + intros x Hx. destruct (v_held _ _ _ V x Hx) as [H|[H|H]]; [now left| |right; right; cbn; apply in_or_app; now left].
      destruct (Z.eq_dec (fst (x_cancel x)) (t_ticks (e_time s) + 1)) as [Ea|Ea].
      * right; right. cbn. apply in_or_app; right. apply in_map_iff. eexists. split; [|apply filter_In; split; [exact H|apply Z.eqb_eq; exact Ea]]. reflexivity.
      * right; left. cbn. apply filter_In. split; [exact H|]. apply Bool.negb_true_iff, Z.eqb_neq; exact Ea.
    + intros x Hx. now apply filter_In in Hx.
    + intros i tx Hi. apply in_app_or in Hi as [Hi|Hi]; [now left|right]. apply in_map_iff in Hi as [[[a j] f] [Ey Hy]]. cbn in Ey. inversion Ey; subst.
      apply filter_In in Hy as [Hy Ha]. cbn in Ha. exists a. split; [assumption|]. lia.
    + lia.
  - (* run *)
    pose proof (ok_step (e_time s) (TRun k)) as Hst. cbn in Hst. unfold run_one in *.
    destruct (take_nth k (t_running (e_time s))) as [[[i tx] r']|] eqn:Et.
    2: { injection E as <- <-. apply inv_keep with (s := s); auto; try apply V. left; cbn; split; [reflexivity|tauto].
         cbn. symmetry; apply Tk; discriminate. }
    specialize (Hst _ _ Hok eq_refl). destruct (take_nth_perm _ _ _ _ Et) as [u [v [Eu ->]]].
    injection E as E. unfold e2e_timed_out in E. cbn [e_out e_next e_time] in E.
    assert (Hrun : forall (j : Z) (t : N), In (j, t) (u ++ v) -> In (j, t) (t_running (e_time s))).
    { intros j t Hj. rewrite Eu. apply in_app_or in Hj as [Hj|Hj]; apply in_or_app; [auto|right; now right]. }
    assert (Hheld : forall x, In x (e_out s) -> x_tx x <> tx ->
       held (Timeouts (t_ticks (e_time s)) (t_gen (e_time s)) (t_set (e_time s)) (u ++ v)) x).
    { intros x Hx Hn. destruct (v_held _ _ _ V x Hx) as [H|[H|H]]; [now left|right; left; exact H|right; right].
      cbn. rewrite Eu in H. apply in_app_or in H as [H|[H|H]]; apply in_or_app; auto. inversion H. congruence. }
    destruct (find_tx tx (e_out s)) as [x|] eqn:Ef; injection E as <- <-;
      apply inv_keep with (s := s); auto; cbn [e_out e_time e_next r_called r_sent t_set t_running t_ticks]; auto;
      try (symmetry; apply Tk; discriminate).
    + now apply NoDup_map_filter.
    + intros y Hy. now apply in_erase in Hy.
    + apply find_tx_some in Ef as [Hx Ex]. intros tx'. rewrite called_one. rewrite (wait_erased s) by reflexivity. destruct (N.eqb_spec tx tx') as [<-|Hn].
      * right. split; [eauto|]. split; [|tauto]. exists x; auto.
      * left. split; [reflexivity|]. split; [tauto|]. intros; split; auto.
    + intros y Hy. apply in_erase in Hy as [Hy Hn]. auto.
    + left. split; [reflexivity|]. now apply wait_same.
    + intros y Hy. apply Hheld; [assumption|]. now apply (find_tx_none _ _ Ef).
  - (* reset *)
    injection E as <- <-. fold (cancels (e_time s) (filter (fun x => beq (x_to x) id) (e_out s))).
    set (mine := filter (fun x => beq (x_to x) id) (e_out s)).
    assert (Hm : forall x, In x mine <-> In x (e_out s) /\ x_to x = id).
    { intros x. unfold mine. rewrite filter_In, beq_eq. tauto. }
    assert (Ho : forall x, In x (filter (fun x => negb (beq (x_to x) id)) (e_out s)) <-> In x (e_out s) /\ x_to x <> id).
    { intros x. rewrite filter_In, Bool.negb_true_iff. rewrite <- (Bool.not_true_iff_false (beq (x_to x) id)), beq_eq. tauto. }
    assert (Hndm : NoDup (map x_tx mine)) by now apply NoDup_map_filter.
    assert (Huniq : forall x y, In x (e_out s) -> In y (e_out s) -> x_tx x = x_tx y -> x = y).
    { intros x y Hx Hy Exy. pose proof (find_tx_in _ _ _ Hnd Hx Exy) as F1. pose proof (find_tx_in _ _ _ Hnd Hy eq_refl) as F2. congruence. }
    apply inv_keep with (s := s); [exact V|reflexivity|reflexivity|reflexivity|..]; cbn [e_out e_time e_next r_called r_sent].
    + now apply ok_cancels.
    + now apply NoDup_map_filter.
    + intros x Hx. now apply Ho in Hx.
    + intros tx. rewrite called_map by assumption. destruct (existsb _ mine) eqn:Ex.
      * right. apply existsb_exists in Ex as [x [Hx Ex]]. apply N.eqb_eq in Ex. apply Hm in Hx as [Hx Hid]. split; [eauto|].
        split; [exists x; auto|]. intros [y [Hy Ey]]. cbn in Hy. apply Ho in Hy as [Hy Hn]. assert (x = y) by (apply Huniq; congruence). congruence.
      * left. split; [reflexivity|]. unfold waiting_for; cbn [e_out]. split; intros [x [Hx Etx]].
        -- apply Ho in Hx as [Hx _]. eauto.
        -- exists x. split; [|assumption]. apply Ho. split; [assumption|]. intros Hid. apply Bool.not_true_iff_false in Ex. apply Ex.
           apply existsb_exists. exists x. split; [now apply Hm|now apply N.eqb_eq].
    + intros x Hx. apply Ho in Hx as [Hx Hn]. apply held_cancels; auto; try apply (v_held _ _ _ V); auto.
      * intros y Hy. apply Hm in Hy as [Hy _]. now apply (v_held _ _ _ V).
      * intros Hin. apply in_map_iff in Hin as [y [Ey Hy]]. apply Hm in Hy as [Hy Hid]. assert (x = y) by (apply Huniq; congruence). congruence.
    + apply in_cancels.
    + intros i tx Hi. left. now rewrite (proj1 (cancels_same mine (e_time s))) in Hi.
    + rewrite (proj2 (cancels_same mine (e_time s))). symmetry. apply Tk. discriminate.
Qed.
Lemma inv_exec h2 : forall h rs s s' rs2, inv h rs s -> eexec s h2 = Ret (s', rs2) -> inv (h ++ h2) (rs ++ rs2) s'.
Proof.
  induction h2 as [|o h2 IH]; intros h rs s s' rs2 V E; cbn in E; [injection E as <- <-; now rewrite !app_nil_r|].
  destruct (e2e_step s o) as [[s1 r]|] eqn:Es; [|discriminate]. destruct (eexec s1 h2) as [[s2 rs3]|] eqn:Eh; [|discriminate].
  injection E as <- <-. pose proof (IH _ _ _ _ _ (inv_step _ _ _ _ _ _ V Es) Eh) as X. rewrite <- !app_assoc in X. exact X.
Qed.
Lemma reached h s rs : eexec no_e2e h = Ret (s, rs) -> inv h rs s.
Proof. intros E. exact (inv_exec _ _ _ _ _ _ inv_init E). Qed.

(* a number is given once *)
Lemma asked_once h rs s tx h1 to d b h1' to' d' b' : inv h rs s ->
  asked_after h1 h rs tx to d b -> asked_after h1' h rs tx to' d' b' -> h1 = h1' /\ to = to' /\ d = d' /\ b = b'.
Proof.
  intros V (h2 & r & E & N1 & R1) (h2' & r' & E' & N1' & R1').
  destruct (v_num _ _ _ V _ _ _ _ _ E N1 R1) as [_ E1]. destruct (v_num _ _ _ V _ _ _ _ _ E' N1' R1') as [_ E2].
  assert (Hl : forall (a b a' b' : list eop) (x x' : eop), a ++ x :: b = a' ++ x' :: b' -> is_send x = true -> is_send x' = true ->
             count is_send a = count is_send a' -> a = a' /\ x = x').
  { clear. induction a as [|y a IH]; intros b [|y' a'] b' x x' H Sx Sx' Hc; cbn in H.
    - inversion H; auto.
    - inversion H; subst. rewrite count_cons, Sx in Hc. change (count is_send []) with 0%N in Hc. lia.
    - inversion H; subst. rewrite count_cons, Sx' in Hc. change (count is_send []) with 0%N in Hc. lia.
    - inversion H; subst. rewrite !count_cons in Hc. destruct (IH _ _ _ _ _ H2 Sx Sx' ltac:(lia)) as [-> ->]. auto. }
  rewrite E in E'. destruct (Hl _ _ _ _ _ _ E' eq_refl eq_refl ltac:(lia)) as [-> X]. inversion X. auto.
Qed.
