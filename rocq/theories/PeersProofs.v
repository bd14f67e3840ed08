From Verif Require Import Peers PeersSpec Hist HistSpec.

Lemma in_replace {X} (x t : X) i y l : nth_error l i = Some t -> In x l -> x = t \/ In x (replace_nth i y l).
Proof.
  revert i; induction l as [|z l IH]; intros [|i] E H; try discriminate; cbn in *.
  - injection E as ->. rewrite in_app_iff. intuition.
  - destruct H as [->|H]; [auto|]. destruct (IH i E H); auto.
Qed.
Lemma in_replaced {X} (x t : X) i y l : nth_error l i = Some t -> In x y -> In x (replace_nth i y l).
Proof.
  revert i; induction l as [|z l IH]; intros [|i] E H; try discriminate; cbn in *; [rewrite in_app_iff; auto|eauto].
Qed.

Lemma split_order {X} (x y : X) : forall a b c d, a ++ x :: b = c ++ y :: d -> In x d \/ x = y \/ In y b.
Proof.
  induction a as [|z a IH]; intros b [|w c] d Eq; cbn in Eq.
  - injection Eq as -> _. auto.
  - injection Eq as _ ->. right. right. rewrite in_app_iff. right. now left.
  - injection Eq as _ <-. left. rewrite in_app_iff. right. now left.
  - injection Eq as _ Eq. eauto.
Qed.

Section P.
Context {E V L : Type} (attest : Z -> E -> option (bytes * V)) (check : L -> V -> bool) (no_values : V) (timeout : Z) (l0 : L).
Notation step := (pstep attest check no_values timeout).
Notation good := (good_evidence attest check l0).
Notation est := (established attest check l0).
Notation np := (new_peer no_values).
Implicit Types (h : list (pop E L)) (s : pmanager V L) (p : peer V) (o : pop E L).

Lemma time_snoc h o : time_after (h ++ [o]) = match o with PTime t => t | _ => time_after h end.
Proof. unfold time_after. rewrite fold_left_app. reflexivity. Qed.
Lemma limits_snoc h o : limits_after l0 (h ++ [o]) = match o with PLimits l => l | _ => limits_after l0 h end.
Proof. unfold limits_after. rewrite fold_left_app. reflexivity. Qed.
Lemma mins_snoc h o : mins_called (h ++ [o]) = match o with PLimits _ => false | PMins => true | _ => mins_called h end.
Proof. unfold mins_called. rewrite fold_left_app. reflexivity. Qed.

Lemma good_more h o id k ev t v after : good h id k ev t v after -> good (h ++ [o]) id k ev t v (after ++ [o]).
Proof.
  intros [h1 [h2 [-> H]]]. exists h1, h2. split; [|exact H]. rewrite <- !app_assoc. cbn [app]. rewrite <- app_assoc. reflexivity.
Qed.
Lemma est_more h o id : est h id -> closes id o = false -> est (h ++ [o]) id.
Proof.
  intros [k [ev [t [v [h3 [h4 [Hk [Hg Hn]]]]]]]] Ho. exists k, ev, t, v, h3, (h4 ++ [o]). split; [assumption|]. split.
  - apply (good_more _ o) in Hg. rewrite <- app_assoc in Hg. exact Hg.
  - apply none_of_app. split; [assumption|]. intros x [<-|[]]. exact Ho.
Qed.

Definition tcov (T : Z) (thr : list thread) (id : bytes) : Prop :=
  In (TTime T None) thr \/ exists todo, In (TTime T (Some todo)) thr /\ In id todo.
Definition mcov (thr : list thread) (id : bytes) : Prop :=
  (exists d, In (TMins None d) thr) \/ exists todo d, In (TMins (Some todo) d) thr /\ In id todo.
Definition mcov' (thr : list thread) (id : bytes) : Prop := mcov thr id \/ exists todo, In (TMins todo (Some id)) thr.
Definition fresh (T last : Z) : Prop := (T <= last + timeout /\ last - timeout <= T)%Z.

Record pinv h (T : Z) (lim : L) (ids : list bytes) (thr : list thread) (id : bytes) p : Prop := {
  i_hs : p_hs p = true -> p_chan p = false;
  i_est : p_chan p = true -> est h id;
  i_ev : p_chan p = true -> exists k ev after, good h id k ev (p_last p) (p_vals p) after;
  i_lock : match p_lock p with
           | None => True
           | Some (k, ts, None) => exists h1 h2, h = h1 ++ PLock id k :: h2 /\ ts = time_after h1
           | Some (k, ts, Some v) => exists ev after, good h id k ev ts v after
           end;
  i_in : p_chan p = true \/ p_lock p <> None -> In id ids;
  i_fresh : p_chan p = true -> fresh T (p_last p) \/ tcov T thr id;
  i_lts : forall k ts v, p_lock p = Some (k, ts, v) -> ts = T \/ tcov T thr id;
  i_min : mins_called h = true -> p_chan p = true -> check lim (p_vals p) = true \/ mcov' thr id;
  i_lmin : mins_called h = true -> forall k ts v, p_lock p = Some (k, ts, Some v) -> check lim v = true \/ mcov thr id }.

Lemma pinv_new h T lim ids thr id : pinv h T lim ids thr id np.
Proof. constructor; cbn; try discriminate; auto. intros [H|H]; [discriminate|now destruct H]. Qed.

Lemma pinv_mono h o T lim ids thr id p ids' thr' : pinv h T lim ids thr id p -> closes id o = false ->
  (mins_called (h ++ [o]) = true -> mins_called h = true \/ mcov thr' id) ->
  (In id ids -> In id ids') ->
  (In id ids -> tcov T thr id -> tcov T thr' id) -> (In id ids -> mcov thr id -> mcov thr' id) -> (In id ids -> mcov' thr id -> mcov' thr' id) ->
  pinv (h ++ [o]) T lim ids' thr' id p.
Proof.
  intros [H1 H2 H3 H4 H5 H6 H7 H8 H9] Hc Hm Hi Ht Hm1 Hm2. constructor; auto.
  - intros Hp. apply est_more; auto.
  - intros Hp. destruct (H3 Hp) as [k [ev [after Hg]]]. exists k, ev, (after ++ [o]). now apply good_more.
  - destruct (p_lock p) as [[[k ts] [v|]]|]; auto.
    + destruct H4 as [ev [after Hg]]. exists ev, (after ++ [o]). now apply good_more.
    + destruct H4 as [h1 [h2 [-> Hts]]]. exists h1, (h2 ++ [o]). rewrite <- app_assoc. auto.
  - intros Hp. destruct (H6 Hp); auto.
  - intros k ts v Hl. destruct (H7 _ _ _ Hl); auto. right. apply Ht; auto. apply H5. right. congruence.
  - intros Hmm Hp. destruct (Hm Hmm) as [Hx|Hx]; [destruct (H8 Hx Hp); auto|right; left; exact Hx].
  - intros Hmm k ts v Hl. destruct (Hm Hmm) as [Hx|Hx]; [|auto]. destruct (H9 Hx _ _ _ Hl); auto. right. apply Hm1; auto. apply H5. right. congruence.
Qed.

Definition inv h s : Prop :=
  m_time s = time_after h /\ m_limits s = limits_after l0 h /\
  forall id, pinv h (m_time s) (m_limits s) (m_ids s) (m_threads s) id (m_peer s id).
Definition neutral o : Prop := match o with PTime _ | PLimits _ | PMins => False | _ => True end.

Lemma in_ids id x s p : In x (m_ids s) -> In x (m_ids (set_peer id p s)).
Proof. intros H. cbn. destruct (existsb (beq id) (m_ids s)); [assumption|now right]. Qed.
Lemma id_in_ids id s p : In id (m_ids (set_peer id p s)).
Proof.
  cbn. destruct (existsb (beq id) (m_ids s)) eqn:Ex; [|now left]. apply existsb_exists in Ex as [y [Hy Hb]]. apply beq_eq in Hb. now subst y.
Qed.
Lemma inv_set h s o id p : inv h s -> neutral o -> (forall x, x <> id -> closes x o = false) ->
  pinv (h ++ [o]) (m_time s) (m_limits s) (m_ids (set_peer id p s)) (m_threads s) id p ->
  inv (h ++ [o]) (set_peer id p s).
Proof.
  intros [H1 [H2 H3]] Hn Hc Hp. split; [|split].
  - rewrite time_snoc. destruct o; try contradiction; exact H1.
  - rewrite limits_snoc. destruct o; try contradiction; exact H2.
  - intros x. change (m_peer (set_peer id p s) x) with (if beq x id then p else m_peer s x). destruct (beq x id) eqn:Ex.
    + apply beq_eq in Ex. subst x. exact Hp.
    + eapply pinv_mono; [apply H3|apply Hc; intros ->; rewrite beq_refl in Ex; discriminate| |intros Hi; now apply in_ids|auto|auto|auto].
      rewrite mins_snoc. destruct o; try contradiction; auto.
Qed.
Lemma pinv_same h s o id : inv h s -> neutral o -> closes id o = false ->
  pinv (h ++ [o]) (m_time s) (m_limits s) (m_ids (set_peer id (m_peer s id) s)) (m_threads s) id (m_peer s id).
Proof.
  intros [_ [_ H3]] Hn Hc. eapply pinv_mono; [apply H3|exact Hc| |intros Hi; now apply in_ids|auto|auto|auto].
  rewrite mins_snoc. destruct o; try contradiction; auto.
Qed.
Lemma inv_threads h s o thr : inv h s -> neutral o -> (forall x, closes x o = false) ->
  (forall id, In id (m_ids s) -> tcov (m_time s) (m_threads s) id -> tcov (m_time s) thr id) ->
  (forall id, In id (m_ids s) -> mcov (m_threads s) id -> mcov thr id) ->
  (forall id, In id (m_ids s) -> mcov' (m_threads s) id -> mcov' thr id) ->
  inv (h ++ [o]) (set_threads thr s).
Proof.
  intros [H1 [H2 H3]] Hn Hc Ht Hm Hm'. split; [|split].
  - rewrite time_snoc. destruct o; try contradiction; exact H1.
  - rewrite limits_snoc. destruct o; try contradiction; exact H2.
  - intros x. cbn. eapply pinv_mono; [apply H3|apply Hc| |auto|auto|auto|auto].
    rewrite mins_snoc. destruct o; try contradiction; auto.
Qed.
Lemma beq_false x id : x <> id -> beq id x = false.
Proof. intros H. destruct (beq id x) eqn:Eb; [|reflexivity]. apply beq_eq in Eb. now destruct H. Qed.

Hypothesis timeout_ok : (0 <= timeout)%Z.

Lemma inv_step h s o s' r : inv h s -> step s o = Ret (s', r) -> inv (h ++ [o]) s'.
Proof.
  intros Hinv Es. pose proof Hinv as [HT [HL HP]].
  destruct o as [id maybe ok|id k|id ev|id ok|id d|id ok|id|id|secs|l| |i|i id|i|i]; cbn [pstep] in Es.
  - (* PConnect *) destruct (match p_lock (m_peer s id) with Some _ => true | None => false end); [discriminate|].
    assert (Hc : forall x, x <> id -> @closes E L x (PConnect id maybe ok) = false) by (intros x Hx; cbn; destruct maybe; [reflexivity|now apply beq_false]).
    destruct (maybe && _)%bool eqn:Em.
    + injection Es as <- <-. apply andb_prop in Em as [-> _]. apply inv_set; auto; [exact I|]. apply pinv_same; auto. exact I.
    + destruct ok; injection Es as <- <-; (apply inv_set; auto; [exact I|]); [|apply pinv_new].
      constructor; cbn; try discriminate; auto. intros [H|H]; [discriminate|now destruct H].
  - (* PLock *) destruct (p_lock (m_peer s id)) eqn:El; [discriminate|]. cbv zeta in Es.
    assert (Hc : forall x, x <> id -> @closes E L x (PLock id k) = false) by (intros x Hx; cbn; destruct k; auto using beq_false).
    assert (Hd : forall p0, inv (h ++ [PLock id k]) (set_peer id (disconnect no_values p0) s)) by (intros p0; apply inv_set; auto; [exact I|apply pinv_new]).
    destruct k; [|destruct (state (m_peer s id)) eqn:Est|destruct (state (m_peer s id)) eqn:Est]; injection Es as <- <-; auto.
    + apply inv_set; auto; [exact I|]. constructor; cbn [p_hs p_chan p_last p_vals p_lock]; try discriminate.
      * exists h, []. auto.
      * intros _. apply id_in_ids.
      * intros k0 ts v [= <- <- <-]. auto.
    + assert (Hch : p_chan (m_peer s id) = false) by (apply (i_hs _ _ _ _ _ _ _ (HP id)); unfold state in Est; destruct (p_hs (m_peer s id)); [reflexivity|destruct (p_chan (m_peer s id)); discriminate]).
      apply inv_set; auto; [exact I|]. constructor; cbn [p_hs p_chan p_last p_vals p_lock]; rewrite ?Hch; try discriminate.
      * exists h, []. auto.
      * intros _. apply id_in_ids.
      * intros k0 ts v [= <- <- <-]. auto.
    + assert (Hp := pinv_same h s (PLock id KUpdate) id Hinv I eq_refl). apply inv_set; auto; [exact I|].
      destruct Hp as [P1 P2 P3 P4 P5 P6 P7 P8 P9]. constructor; cbn [p_hs p_chan p_last p_vals p_lock]; auto.
      * exists h, []. auto.
      * intros _. apply id_in_ids.
      * intros k0 ts v [= <- <- <-]. auto.
      * discriminate.
  - (* PCheck *) destruct (p_lock (m_peer s id)) as [[[k ts] [v|]]|] eqn:El; try discriminate.
    assert (Hd : forall p0, inv (h ++ [PCheck id ev]) (set_peer id (disconnect no_values p0) s)) by (intros p0; apply inv_set; auto; [exact I|apply pinv_new]).
    destruct (attest ts ev) as [[key v]|] eqn:Ea; [|injection Es as <- <-; auto].
    destruct (beq key id && check (m_limits s) v)%bool eqn:Ec; [|injection Es as <- <-; auto]. injection Es as <- <-.
    apply andb_prop in Ec as [Ek Ec]. apply beq_eq in Ek. subst key.
    pose proof (i_lock _ _ _ _ _ _ _ (HP id)) as Hlk. rewrite El in Hlk. destruct Hlk as [h1 [h2 [Eh Ets]]].
    assert (Hp := pinv_same h s (PCheck id ev) id Hinv I eq_refl). apply inv_set; auto; [exact I|].
    pose proof (i_lts _ _ _ _ _ _ _ (HP id) _ _ _ El) as Hts.
    destruct Hp as [P1 P2 P3 P4 P5 P6 P7 P8 P9]. constructor; cbn [p_hs p_chan p_last p_vals p_lock]; auto.
    + exists ev, [], h1, h2. split; [rewrite Eh, <- app_assoc; reflexivity|]. split; [exact Ets|]. split; [exact Ea|]. rewrite <- Eh, <- HL. exact Ec.
    + intros _. apply id_in_ids.
    + intros k0 ts0 v0 [= <- <- <-]. auto.
    + intros _ k0 ts0 v0 [= <- <- <-]. auto.
  - (* PDone *) destruct (p_lock (m_peer s id)) as [[[k ts] [v|]]|] eqn:El; try discriminate.
    assert (Hd : forall p0, inv (h ++ [PDone id ok]) (set_peer id (disconnect no_values p0) s)) by (intros p0; apply inv_set; auto; [exact I|apply pinv_new]).
    pose proof (i_lock _ _ _ _ _ _ _ (HP id)) as Hlk. rewrite El in Hlk. destruct Hlk as [ev [after Hg]].
    pose proof (i_lts _ _ _ _ _ _ _ (HP id) _ _ _ El) as Hts. pose proof (i_lmin _ _ _ _ _ _ _ (HP id)) as Hlm.
    assert (Hfr : fresh (m_time s) ts \/ tcov (m_time s) (m_threads s) id) by (destruct Hts as [->|]; [left; unfold fresh; lia|auto]).
    assert (Hmm : mins_called (h ++ [PDone id ok]) = true -> check (m_limits s) v = true \/ mcov' (m_threads s) id).
    { rewrite mins_snoc. intros Hx. destruct (Hlm Hx _ _ _ El); unfold mcov'; auto. }
    assert (Hnew : k <> KUpdate -> ok = true -> inv (h ++ [PDone id ok]) (set_peer id (Peer false true ts v None) s)).
    { intros Hk ->. apply inv_set; auto; [exact I|]. constructor; cbn [p_hs p_chan p_last p_vals p_lock]; auto; try discriminate.
      - intros _. exists k, ev, ts, v, after, []. split; [assumption|]. split; [now apply good_more|intros x []].
      - intros _. exists k, ev, (after ++ [PDone id true]). now apply good_more.
      - intros _. apply id_in_ids. }
    destruct k; try (destruct ok; injection Es as <- <-; auto; apply Hnew; [discriminate|reflexivity]).
    injection Es as <- <-. assert (Hp := pinv_same h s (PDone id ok) id Hinv I eq_refl). apply inv_set; auto; [exact I|].
    destruct Hp as [P1 P2 P3 P4 P5 P6 P7 P8 P9]. constructor; cbn [p_hs p_chan p_last p_vals p_lock]; auto; try discriminate.
    + intros _. exists KUpdate, ev, (after ++ [PDone id ok]). now apply good_more.
    + intros _. apply id_in_ids.
  - (* PData *) destruct (match p_lock (m_peer s id) with Some _ => true | None => false end); [discriminate|].
    assert (Hd : forall p0, inv (h ++ [PData id d]) (set_peer id (disconnect no_values p0) s)) by (intros p0; apply inv_set; auto; [exact I|apply pinv_new]).
    assert (Hsm : inv (h ++ [PData id d]) (set_peer id (m_peer s id) s)) by (apply inv_set; auto; [exact I|apply pinv_same; auto; exact I]).
    destruct (state (m_peer s id)); [| |destruct d]; injection Es as <- <-; auto.
  - (* PSend *) destruct (match p_lock (m_peer s id) with Some _ => true | None => false end); [discriminate|].
    assert (Hd : forall p0, inv (h ++ [PSend id ok]) (set_peer id (disconnect no_values p0) s)) by (intros p0; apply inv_set; auto; [exact I|apply pinv_new]).
    assert (Hsm : inv (h ++ [PSend id ok]) (set_peer id (m_peer s id) s)) by (apply inv_set; auto; [exact I|apply pinv_same; auto; exact I]).
    destruct (state (m_peer s id)); [| |destruct ok]; injection Es as <- <-; auto.
  - (* PRst *) destruct (match p_lock (m_peer s id) with Some _ => true | None => false end); [discriminate|]. injection Es as <- <-.
    apply inv_set; auto; [exact I|intros x Hx; cbn; now apply beq_false|apply pinv_new].
  - (* PReset *) destruct (match p_lock (m_peer s id) with Some _ => true | None => false end); [discriminate|]. injection Es as <- <-.
    apply inv_set; auto; [exact I|intros x Hx; cbn; now apply beq_false|apply pinv_new].
  - (* PTime *) destruct (m_time s =? secs)%Z eqn:Et; injection Es as <- <-.
    + apply Z.eqb_eq in Et. subst secs. split; [cbn; now rewrite time_snoc|]. split; [cbn; now rewrite limits_snoc|]. intros x. cbn [m_time m_limits m_ids m_threads m_peer].
      eapply pinv_mono; [apply HP|reflexivity| |auto|auto|auto|auto]. rewrite mins_snoc. auto.
    + split; [cbn; now rewrite time_snoc|]. split; [cbn; now rewrite limits_snoc|]. intros x. cbn [set_threads m_time m_limits m_ids m_threads m_peer].
      assert (Hcov : forall x, tcov secs (TTime secs None :: m_threads s) x) by (intros y; left; now left).
      destruct (HP x) as [P1 P2 P3 P4 P5 P6 P7 P8 P9].
      assert (Hp : pinv (h ++ [PTime secs]) (m_time s) (m_limits s) (m_ids s) (m_threads s) x (m_peer s x)).
      { eapply pinv_mono; [apply HP|reflexivity| |auto|auto|auto|auto]. rewrite mins_snoc. auto. }
      destruct Hp as [Q1 Q2 Q3 Q4 Q5 Q6 Q7 Q8 Q9]. constructor; auto.
      * intros Hm Hch. destruct (Q8 Hm Hch) as [|[[[d Hd]|[todo [d [Hd Hi]]]]|[todo Hd]]]; auto; right; [left; left; exists d; now right|left; right; exists todo, d; split; [now right|assumption]|right; exists todo; now right].
      * intros Hm k ts v Hl. destruct (Q9 Hm _ _ _ Hl) as [|[[d Hd]|[todo [d [Hd Hi]]]]]; auto; right; [left; exists d; now right|right; exists todo, d; split; [now right|assumption]].
  - (* PLimits *) injection Es as <- <-. split; [cbn; now rewrite time_snoc|]. split; [cbn; now rewrite limits_snoc|]. intros x. cbn [m_time m_limits m_ids m_threads m_peer].
    assert (Hp : pinv (h ++ [PLimits l]) (m_time s) (m_limits s) (m_ids s) (m_threads s) x (m_peer s x)).
    { eapply pinv_mono; [apply HP|reflexivity| |auto|auto|auto|auto]. rewrite mins_snoc. discriminate. }
    destruct Hp as [Q1 Q2 Q3 Q4 Q5 Q6 Q7 Q8 Q9]. constructor; auto; rewrite mins_snoc; discriminate.
  - (* PMins *) injection Es as <- <-. split; [cbn; now rewrite time_snoc|]. split; [cbn; now rewrite limits_snoc|]. intros x. cbn [set_threads m_time m_limits m_ids m_threads m_peer].
    eapply pinv_mono; [apply HP|reflexivity| |auto| | |].
    + intros _. right. left. exists None. now left.
    + intros _ [H|[todo [H Hi]]]; [left; now right|right; exists todo; split; [now right|assumption]].
    + intros _ _. left. exists None. now left.
    + intros _ _. left. left. exists None. now left.
  - (* PStart *) destruct (nth_error (m_threads s) i) as [t|] eqn:En; [|discriminate].
    destruct t as [secs [todo|]|[todo|] d]; try discriminate; injection Es as <- <-; (apply inv_threads; auto; [exact I| | |]).
    + intros id Hi [H|[todo [H Hin]]].
      * destruct (in_replace _ _ i [TTime secs (Some (m_ids s))] _ En H) as [[= ->]|H']; [|now left].
        right. exists (m_ids s). split; [|assumption]. eapply in_replaced; [exact En|now left].
      * destruct (in_replace _ _ i [TTime secs (Some (m_ids s))] _ En H) as [Hx|H']; [discriminate|]. right. eauto.
    + intros id Hi [[d H]|[todo [d [H Hin]]]]; (destruct (in_replace _ _ i [TTime secs (Some (m_ids s))] _ En H) as [Hx|H']; [discriminate|]); [left|right]; eauto.
    + intros id Hi [[[d H]|[todo [d [H Hin]]]]|[todo H]]; (destruct (in_replace _ _ i [TTime secs (Some (m_ids s))] _ En H) as [Hx|H']; [discriminate|]); [left; left|left; right|right]; eauto.
    + intros id Hi [H|[todo [H Hin]]]; (destruct (in_replace _ _ i [TMins (Some (m_ids s)) d] _ En H) as [Hx|H']; [discriminate|]); [now left|right; eauto].
    + intros id Hi [[d0 H]|[todo [d0 [H Hin]]]]; (destruct (in_replace _ _ i [TMins (Some (m_ids s)) d] _ En H) as [Hx|H']).
      * right. exists (m_ids s), d. split; [|assumption]. eapply in_replaced; [exact En|now left].
      * left. eauto.
      * discriminate.
      * right. eauto.
    + intros id Hi Hm. assert (Hn : In (TMins (Some (m_ids s)) d) (replace_nth i [TMins (Some (m_ids s)) d] (m_threads s))) by (eapply in_replaced; [exact En|now left]).
      left. right. eauto.
  - (* PSweep *) destruct (p_lock (m_peer s id)) eqn:El; [discriminate|]. cbv zeta in Es.
    destruct (nth_error (m_threads s) i) as [t|] eqn:En; [|discriminate].
    assert (Hrem : forall x todo, x <> id -> In x todo -> In x (remove_id id todo)).
    { intros x todo Hx Hin. apply filter_In. split; [assumption|]. rewrite beq_false; [reflexivity|now intros ->]. }
    destruct t as [secs [todo|]|[todo|] [d|]]; try discriminate.
    + assert (Hn : In (TTime secs (Some (remove_id id todo))) (replace_nth i [TTime secs (Some (remove_id id todo))] (m_threads s))) by (eapply in_replaced; [exact En|now left]).
      assert (Ht : forall x, x <> id \/ secs <> m_time s -> tcov (m_time s) (m_threads s) x -> tcov (m_time s) (replace_nth i [TTime secs (Some (remove_id id todo))] (m_threads s)) x).
      { intros x Hx [H|[todo0 [H Hin]]]; (destruct (in_replace _ _ i [TTime secs (Some (remove_id id todo))] _ En H) as [Hy|H']).
        - discriminate.
        - now left.
        - injection Hy as Hs ->. destruct Hx as [Hx|Hx]; [|now destruct Hx]. right. rewrite Hs. exists (remove_id id todo). auto.
        - right. eauto. }
      assert (Hm : forall x, mcov (m_threads s) x -> mcov (replace_nth i [TTime secs (Some (remove_id id todo))] (m_threads s)) x).
      { intros x [[d H]|[todo0 [d [H Hin]]]]; (destruct (in_replace _ _ i [TTime secs (Some (remove_id id todo))] _ En H) as [Hy|H']; [discriminate|]); [left|right]; eauto. }
      assert (Hm' : forall x, mcov' (m_threads s) x -> mcov' (replace_nth i [TTime secs (Some (remove_id id todo))] (m_threads s)) x).
      { intros x [H|[todo0 H]]; [left; auto|]. (destruct (in_replace _ _ i [TTime secs (Some (remove_id id todo))] _ En H) as [Hy|H']; [discriminate|]). right. eauto. }
      set (thr := replace_nth i _ (m_threads s)) in *.
      assert (Hgen : forall p', pinv (h ++ [PSweep i id]) (m_time s) (m_limits s) (m_ids (set_peer id p' s)) thr id p' ->
          inv (h ++ [PSweep i id]) (set_peer id p' (set_threads thr s))).
      { intros p' Hp'. split; [cbn; now rewrite time_snoc|]. split; [cbn; now rewrite limits_snoc|]. intros x.
        change (m_peer (set_peer id p' (set_threads thr s)) x) with (if beq x id then p' else m_peer s x). destruct (beq x id) eqn:Ex.
        - apply beq_eq in Ex. subst x. exact Hp'.
        - assert (Hx : x <> id) by (intros ->; rewrite beq_refl in Ex; discriminate).
          eapply pinv_mono; [apply HP|reflexivity|rewrite mins_snoc; auto|intros Hi; now apply in_ids|intros _; apply Ht; now left|intros _; apply Hm|intros _; apply Hm']. }
      assert (Hkeep : (p_chan (m_peer s id) = true -> secs = m_time s -> fresh (m_time s) (p_last (m_peer s id))) -> inv (h ++ [PSweep i id]) (set_threads thr s)).
      { intros Hf. split; [cbn; now rewrite time_snoc|]. split; [cbn; now rewrite limits_snoc|]. intros x. cbn [m_peer set_threads m_time m_limits m_ids m_threads].
        destruct (beq x id) eqn:Ex.
        - apply beq_eq in Ex. subst x. destruct (Z.eq_dec secs (m_time s)) as [Hs|Hs].
          + assert (Hp : pinv (h ++ [PSweep i id]) (m_time s) (m_limits s) (m_ids s) (m_threads s) id (m_peer s id)).
            { eapply pinv_mono; [apply HP|reflexivity| |auto|auto|auto|auto]. rewrite mins_snoc. auto. }
            destruct Hp as [Q1 Q2 Q3 Q4 Q5 Q6 Q7 Q8 Q9]. constructor; auto.
            * rewrite El. discriminate.
            * intros Hmm Hch. destruct (Q8 Hmm Hch); auto.
            * rewrite El. discriminate.
          + eapply pinv_mono; [apply HP|reflexivity|rewrite mins_snoc; auto|auto|intros _; apply Ht; now right|intros _; apply Hm|intros _; apply Hm'].
        - assert (Hx : x <> id) by (intros ->; rewrite beq_refl in Ex; discriminate).
          eapply pinv_mono; [apply HP|reflexivity|rewrite mins_snoc; auto|auto|intros _; apply Ht; now left|intros _; apply Hm|intros _; apply Hm']. }
      injection Es as <- <-. destruct (too_old timeout secs (m_peer s id)) eqn:Eo.
      * apply Hgen. apply pinv_new.
      * apply Hkeep. intros Hch Hs. unfold too_old in Eo. pose proof (i_hs _ _ _ _ _ _ _ (HP id)) as Hhs. unfold state in Eo.
        destruct (p_hs (m_peer s id)) eqn:Eh; [rewrite Hhs in Hch by reflexivity; discriminate|]. rewrite Hch in Eo. unfold fresh. rewrite <- Hs.
        destruct ((secs <=? p_last (m_peer s id) + timeout)%Z && (p_last (m_peer s id) - timeout <=? secs)%Z)%bool eqn:Ef; [|discriminate]. lia.
    + set (bad := match state (m_peer s id) with Connected => negb (check (m_limits s) (p_vals (m_peer s id))) | _ => false end) in *.
      set (nt := TMins (Some (remove_id id todo)) (if bad then Some id else None)) in *.
      assert (Hn : In nt (replace_nth i [nt] (m_threads s))) by (eapply in_replaced; [exact En|now left]).
      assert (Ht : forall x, tcov (m_time s) (m_threads s) x -> tcov (m_time s) (replace_nth i [nt] (m_threads s)) x).
      { intros x [H|[todo0 [H Hin]]]; (destruct (in_replace _ _ i [nt] _ En H) as [Hy|H']; [discriminate|]); [now left|right; eauto]. }
      assert (Hm : forall x, x <> id -> mcov (m_threads s) x -> mcov (replace_nth i [nt] (m_threads s)) x).
      { intros x Hx [[d H]|[todo0 [d [H Hin]]]]; (destruct (in_replace _ _ i [nt] _ En H) as [Hy|H']).
        - discriminate.
        - left. eauto.
        - injection Hy as -> ->. right. exists (remove_id id todo), (if bad then Some id else None). auto.
        - right. eauto. }
      assert (Hm' : forall x, x <> id -> mcov' (m_threads s) x -> mcov' (replace_nth i [nt] (m_threads s)) x).
      { intros x Hx [H|[todo0 H]]; [left; auto|]. (destruct (in_replace _ _ i [nt] _ En H) as [Hy|H']; [discriminate|]). right. eauto. }
      injection Es as <- <-. split; [cbn; now rewrite time_snoc|]. split; [cbn; now rewrite limits_snoc|]. intros x. cbn [m_peer set_threads m_time m_limits m_ids m_threads].
      destruct (beq x id) eqn:Ex.
      * apply beq_eq in Ex. subst x.
        assert (Hp : pinv (h ++ [PSweep i id]) (m_time s) (m_limits s) (m_ids s) (m_threads s) id (m_peer s id)).
        { eapply pinv_mono; [apply HP|reflexivity| |auto|auto|auto|auto]. rewrite mins_snoc. auto. }
        destruct Hp as [Q1 Q2 Q3 Q4 Q5 Q6 Q7 Q8 Q9]. constructor; auto.
        -- intros Hch. destruct (Q6 Hch); auto.
        -- rewrite El. discriminate.
        -- intros Hmm Hch. assert (Hst : state (m_peer s id) = Connected).
           { unfold state. destruct (p_hs (m_peer s id)) eqn:Eh; [rewrite (Q1 eq_refl) in Hch; discriminate|]. now rewrite Hch. }
           assert (Hbad : check (m_limits s) (p_vals (m_peer s id)) = true \/ bad = true) by (unfold bad; rewrite Hst; destruct (check (m_limits s) (p_vals (m_peer s id))); auto).
           destruct Hbad as [|Hbad]; [auto|]. right. right. exists (Some (remove_id id todo)). unfold nt in *. rewrite Hbad in *. exact Hn.
        -- rewrite El. discriminate.
      * assert (Hx : x <> id) by (intros ->; rewrite beq_refl in Ex; discriminate).
        eapply pinv_mono; [apply HP|reflexivity|rewrite mins_snoc; auto|auto|intros _; apply Ht|intros _; now apply Hm|intros _; now apply Hm'].
  - (* PDrop *) destruct (nth_error (m_threads s) i) as [t|] eqn:En; [|discriminate]. destruct t as [|todo [d|]]; try discriminate.
    destruct (match p_lock (m_peer s d) with Some _ => true | None => false end); [discriminate|]. injection Es as <- <-.
    set (nt := TMins todo None) in *.
    assert (Hn : In nt (replace_nth i [nt] (m_threads s))) by (eapply in_replaced; [exact En|now left]).
    assert (Ht : forall x, tcov (m_time s) (m_threads s) x -> tcov (m_time s) (replace_nth i [nt] (m_threads s)) x).
    { intros x [H|[todo0 [H Hin]]]; (destruct (in_replace _ _ i [nt] _ En H) as [Hy|H']; [discriminate|]); [now left|right; eauto]. }
    assert (Hm : forall x, mcov (m_threads s) x -> mcov (replace_nth i [nt] (m_threads s)) x).
    { intros x [[d0 H]|[todo0 [d0 [H Hin]]]]; (destruct (in_replace _ _ i [nt] _ En H) as [Hy|H']).
      - injection Hy as Hy _. left. exists None. rewrite Hy. exact Hn.
      - left. eauto.
      - injection Hy as Hy _. right. exists todo0, None. rewrite Hy. auto.
      - right. eauto. }
    assert (Hm' : forall x, x <> d -> mcov' (m_threads s) x -> mcov' (replace_nth i [nt] (m_threads s)) x).
    { intros x Hx [H|[todo0 H]]; [left; auto|]. destruct (in_replace _ _ i [nt] _ En H) as [Hy|H']; [injection Hy as _ Hy; now destruct Hx|]. right. eauto. }
    split; [cbn; now rewrite time_snoc|]. split; [cbn; now rewrite limits_snoc|]. intros x.
    change (m_peer (set_peer d (disconnect no_values (m_peer s d)) (set_threads (replace_nth i [nt] (m_threads s)) s)) x) with (if beq x d then np else m_peer s x).
    destruct (beq x d) eqn:Ex; [apply pinv_new|].
    assert (Hx : x <> d) by (intros ->; rewrite beq_refl in Ex; discriminate).
    eapply pinv_mono; [apply HP|reflexivity|rewrite mins_snoc; auto|intros Hi; now apply in_ids|intros _; apply Ht|intros _; now apply Hm|intros _; now apply Hm'].
  - (* PEnd *) destruct (nth_error (m_threads s) i) as [t|] eqn:En; [|discriminate].
    destruct t as [secs [[|]|]|[[|]|] [|]]; try discriminate; injection Es as <- <-; (apply inv_threads; auto; [exact I| | |]).
    + intros id _ [H|[todo [H Hin]]]; (destruct (in_replace _ _ i [] _ En H) as [Hy|H']).
      * discriminate. * now left. * injection Hy as _ ->. destruct Hin. * right; eauto.
    + intros id _ [[d H]|[todo [d [H Hin]]]]; (destruct (in_replace _ _ i [] _ En H) as [Hy|H']; [discriminate|]); [left|right]; eauto.
    + intros id _ [[[d H]|[todo [d [H Hin]]]]|[todo H]]; (destruct (in_replace _ _ i [] _ En H) as [Hy|H']; [discriminate|]); [left; left|left; right|right]; eauto.
    + intros id _ [H|[todo [H Hin]]]; (destruct (in_replace _ _ i [] _ En H) as [Hy|H']; [discriminate|]); [now left|right; eauto].
    + intros id _ [[d H]|[todo [d [H Hin]]]]; (destruct (in_replace _ _ i [] _ En H) as [Hy|H']).
      * discriminate. * left; eauto. * injection Hy as -> ->. destruct Hin. * right; eauto.
    + intros id _ [[[d H]|[todo [d [H Hin]]]]|[todo H]]; (destruct (in_replace _ _ i [] _ En H) as [Hy|H']).
      * discriminate. * left; left; eauto. * injection Hy as -> ->. destruct Hin. * left; right; eauto. * discriminate. * right; eauto.
Qed.
Lemma inv_exec h2 : forall h1 s s' rs, inv h1 s -> exec step s h2 = Ret (s', rs) -> inv (h1 ++ h2) s'.
Proof.
  induction h2 as [|o h2 IH]; intros h1 s s' rs Hi Ex; cbn in Ex; [injection Ex as <- <-; now rewrite app_nil_r|].
  destruct (step s o) as [[s1 r]|] eqn:E1; [|discriminate]. destruct (exec step s1 h2) as [[s2 rs2]|] eqn:E2; [|discriminate].
  injection Ex as <- <-. change (o :: h2) with ([o] ++ h2). rewrite app_assoc. eapply IH; [|exact E2]. eapply inv_step; eauto.
Qed.
Lemma inv_start : inv [] (new_pmanager no_values l0).
Proof. split; [reflexivity|]. split; [reflexivity|]. intros id. apply pinv_new. Qed.
End P.
