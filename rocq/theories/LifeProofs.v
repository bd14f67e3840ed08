From Verif Require Export LifeSpec.

Lemma db_protocol_ok v : db_protocol v = true -> 2 <= v <= 5.
Proof. unfold db_protocol; intros H. destruct v as [|p]; [discriminate|]. destruct p as [[[p|p|]|[p|p|]|]|[[p|p|]|[p|p|]|]|]; try discriminate H; lia. Qed.

Lemma valid_gconf_limits c : valid_gconf c = true <-> limits c.
Proof.
  unfold valid_gconf; split.
  - intros H. destruct (gc_max c <? gc_min c) eqn:E1; [discriminate|]. destruct (gc_min c <? 1) eqn:E2; [discriminate|].
    destruct (gc_att c <? 1) eqn:E3; [discriminate|]. apply db_protocol_ok in H.
    apply N.ltb_ge in E1, E2, E3. now constructor.
  - intros [H1 H2 H3 H4]. apply N.ltb_ge in H1, H2, H3. rewrite H1, H2, H3.
    assert (gc_db c = 2 \/ gc_db c = 3 \/ gc_db c = 4 \/ gc_db c = 5) as [-> | [-> | [-> | ->]]] by lia; reflexivity.
Qed.
Lemma valid_econf_timing c : valid_econf c = true <-> timing c.
Proof.
  unfold valid_econf; split.
  - intros H.
    destruct (ec_election c =? 0) eqn:E1; [discriminate|]. destruct (ec_election c <=? ec_heartbeat c) eqn:E2; [discriminate|].
    destruct (ec_chunk c <? 1024) eqn:E3; [discriminate|]. destruct (ec_voting c <=? ec_election c) eqn:E4; [discriminate|].
    destruct (ec_membership c <=? ec_voting c) eqn:E5; [discriminate|]. destruct (ec_log c <? 1024) eqn:E6; [discriminate|].
    destruct ((ec_pipeline c <=? 0) || (2 ^ 32 - 1 <=? ec_pipeline c)) eqn:E7; [discriminate|].
    apply orb_false_iff in E7 as [E7 E8]. apply negb_true_iff in H.
    apply N.ltb_ge in E3, E6, H. apply N.leb_gt in E2, E4, E5, E7, E8. constructor; try lia; split; assumption.
  - intros [H1 H2 H3 H4 H5 [H6 H7] H8].
    assert (E1 : ec_election c =? 0 = false) by (apply N.eqb_neq; lia).
    apply N.ltb_ge in H4, H5, H8. apply N.leb_gt in H1, H2, H3, H6, H7.
    now rewrite E1, H1, H4, H2, H3, H5, H6, H7, H8.
Qed.
Lemma same_conf_agree a b : same_conf a b = true <-> agree a b.
Proof.
  unfold same_conf; split.
  - intros H. repeat (apply andb_true_iff in H as [H ?]).
    repeat match goal with E : (_ =? _) = true |- _ => apply N.eqb_eq in E | E : Bool.eqb _ _ = true |- _ => apply Bool.eqb_prop in E end.
    now constructor.
  - intros [-> -> -> -> -> ->]. now rewrite !N.eqb_refl, Bool.eqb_reflx.
Qed.
Lemma agree_limits a b : agree a b -> limits a -> limits b.
Proof. intros [E1 E2 E3 E4 E5 E6] [H1 H2 H3 H4]. constructor; congruence. Qed.
Lemma agree_id i a : agree a (with_id i a).
Proof. now constructor. Qed.

(* what every step keeps *)
Record keeps (g : gconf) (s : core) : Prop := {
  k_template : co_template s = g;
  k_limits : limits g;
  k_timing : timing (co_econf s);
  k_group : forall c, group_of s = Some c -> agree g c }.

Lemma new_keeps e g s : new_core e g = Some s -> keeps g s /\ co_phase s = NoState /\ co_calls s = [].
Proof.
  unfold new_core. destruct (valid_econf _) eqn:E1; [|discriminate]. destruct (valid_gconf g) eqn:E2; [|discriminate].
  cbn [negb]. intros [= <-]. cbn. split; [|easy]. constructor; cbn; [easy|now apply valid_gconf_limits|now apply valid_econf_timing|].
  unfold group_of; cbn. discriminate.
Qed.

Lemma request_replication_spec s en r s' es : request_replication s en r = (s', es) ->
  co_template s' = co_template s /\ co_econf s' = co_econf s /\ group_of s' = group_of s /\
  (exists l, co_phase s = Loading l) /\
  ((s' = s /\ es = []) \/
   exists l, co_phase s = Loading l /\ co_phase s' = Loading (Load (ld_conf l) (ld_from l) (ld_tx l) true r) /\
     co_calls s' = co_calls s ++ [CReplicate (ld_from l) (ld_tx l) r] /\ es = [ESent (CReplicate (ld_from l) (ld_tx l) r)])
  \/ (s' = s /\ es = [] /\ forall l, co_phase s <> Loading l).
Proof.
  unfold request_replication. destruct (co_phase s) eqn:P; try (intros [= <- <-]; right; repeat split; congruence).
  destruct (negb (ld_started l) && negb en); intros [= <- <-]; left; cbn; unfold group_of; cbn; rewrite ?P; repeat split; eauto 10.
Qed.

(* one step: what happens to the phase *)
Inductive moved (s : core) (o : lop) (s' : core) (es : list event) : Prop :=
| mv_same : co_phase s' = co_phase s -> none_of is_create_event es -> moved s o s' es
| mv_create id tx rand : co_phase s = NoState -> o = LCreate tx rand -> co_phase s' = PartOf (with_id id (co_template s)) ->
    es = [ECreated (with_id id (co_template s)); EReply tx true] -> moved s o s' es
| mv_join p tx : join_followed s o -> co_phase s' = Waiting p tx -> none_of is_create_event es -> moved s o s' es
| mv_load p tx l : co_phase s = Waiting p tx -> co_phase s' = Loading l -> agree (co_template s) (ld_conf l) -> none_of is_create_event es -> moved s o s' es
| mv_start l l' : co_phase s = Loading l -> co_phase s' = Loading l' -> ld_conf l' = ld_conf l -> none_of is_create_event es -> moved s o s' es
| mv_promote l : co_phase s = Loading l -> co_phase s' = Requesting (ld_conf l) -> none_of is_create_event es -> moved s o s' es
| mv_member c : (co_phase s = PartOf c \/ co_phase s = Requesting c) -> (co_phase s' = PartOf c \/ co_phase s' = Requesting c) -> none_of is_create_event es -> moved s o s' es.

Ltac non := intros ? Hin; cbn in Hin; repeat destruct Hin as [<-|Hin]; try contradiction; reflexivity.

Lemma step_moved s o s' es : life_step s o = Ret (s', es) ->
  moved s o s' es /\ co_template s' = co_template s /\ (timing (co_econf s) -> timing (co_econf s')).
Proof.
  destruct o as [tx rand|tx peer cn|from en r|i a|me|r]; cbn [life_step]; intros H.
  - injection H as H. unfold create in H. destruct (co_phase s) eqn:P; [destruct rand as [id|]|..]; injection H as <- <-; (split; [|easy]);
      try (apply mv_same; [easy|non]). eapply mv_create; [exact P|reflexivity|reflexivity|reflexivity].
  - unfold join in H. destruct (co_phase s) eqn:P; [| | | |injection H as <- <-; split; [apply mv_same; [easy|non]|easy]];
      (destruct peer as [p|]; [|injection H as <- <-; split; [apply mv_same; [easy|non]|easy]]);
      (assert (J : join_followed s (LJoin tx (Some p) cn)) by (split; [easy|unfold in_group; congruence]));
      destruct cn; cbn in H; injection H as <- <-; (split; [|easy]); (eapply mv_join; [exact J|reflexivity|non]).
  - unfold on_connect in H. destruct (co_phase s) eqn:P; try (injection H as <- <-; split; [apply mv_same; [easy|non]|easy]).
    + destruct (beq from peer); [|injection H as <- <-; split; [apply mv_same; [easy|non]|easy]].
      unfold join_first in H; rewrite P in H. cbn in H. injection H as <- <-. split; [apply mv_same; [easy|non]|easy].
    + destruct (ld_started l) eqn:St; cbn [negb] in H; [injection H as <- <-; split; [apply mv_same; [easy|non]|easy]|].
      injection H as H. apply request_replication_spec in H as [(T & E & _ & _ & [[-> ->]|(l2 & P2 & P' & _ & ->)])|(-> & -> & N)].
      * split; [apply mv_same; [easy|non]|easy].
      * rewrite T, E. split; [|easy]. rewrite P in P2. injection P2 as <-. eapply mv_start; [exact P|exact P'|easy|non].
      * now destruct (N l).
  - unfold on_answer in H. destruct (nth_error (co_calls s) i) as [[p tx|p tx rp]|]; [| |injection H as <- <-; split; [apply mv_same; [easy|non]|easy]].
    + injection H as H. unfold on_get_raft in H. destruct a as [|g en r|rf]; try (injection H as <- <-; split; [apply mv_same; [easy|non]|easy]).
      cbn [co_phase co_template] in H.
      destruct (co_phase s) eqn:P; try (injection H as <- <-; split; [apply mv_same; [now cbn|non]|easy]).
      destruct (same_conf (co_template s) (g_conf g)) eqn:C; cbn [negb] in H; [|injection H as <- <-; split; [apply mv_same; [easy|non]|easy]].
      apply same_conf_agree in C.
      destruct (g_members g =? 0); [injection H as <- <-; split; [apply mv_same; [easy|non]|easy]|].
      destruct (g_member_ok g); cbn [negb] in H; [|injection H as <- <-; split; [apply mv_same; [easy|non]|easy]].
      destruct (g_limits_ok g); cbn [negb] in H; [|injection H as <- <-; split; [apply mv_same; [easy|non]|easy]].
      destruct (g_connect_ok g); cbn [negb] in H; [|injection H as <- <-; split; [apply mv_same; [easy|non]|easy]].
      apply request_replication_spec in H as [(T & E & _ & _ & [[-> ->]|(l2 & P2 & P' & _ & ->)])|(-> & -> & N)].
      * split; [|easy]. eapply mv_load; [exact P|reflexivity|exact C|non].
      * rewrite T, E. split; [|easy]. cbn in P2. injection P2 as <-. eapply mv_load; [exact P|exact P'|exact C|non].
      * split; [|easy]. eapply mv_load; [exact P|reflexivity|exact C|non].
    + unfold on_replicated in H. destruct a as [|g en r|rf]; try (injection H as <- <-; split; [apply mv_same; [easy|non]|easy]).
      cbn [co_phase] in H. destruct (co_phase s) eqn:P; try discriminate H.
      destruct rf; cbn [negb] in H; injection H as <- <-; (split; [|easy]).
      * eapply mv_promote; [exact P|reflexivity|non].
      * apply mv_same; [easy|non].
  - unfold on_member in H. destruct (co_phase s) eqn:P; try discriminate H; injection H as <- <-; (split; [|destruct me; easy]).
    + eapply (mv_member _ _ _ _ c); [now right|destruct me; [now left|now right]|non].
    + eapply (mv_member _ _ _ _ c); [now left|destruct me; [now left|now right]|non].
  - injection H as H. unfold reconfigure in H. destruct (valid_econf _) eqn:V; injection H as <- <-; (split; [apply mv_same; [easy|non]|]).
    + cbn. split; [easy|]. intros _. now apply valid_econf_timing.
    + easy.
Qed.

Lemma step_keeps g s o s' es : keeps g s -> life_step s o = Ret (s', es) -> keeps g s'.
Proof.
  intros [T L Ti G] H. destruct (step_moved _ _ _ _ H) as (M & T' & Ti'). constructor; [congruence|easy|auto|].
  intros c. unfold group_of in G |- *. subst g.
  destruct M as [E _|id tx rand _ _ -> _|p tx _ -> _|p tx l _ -> A _|l l' E -> Ec _|l E -> _|c' E E' _].
  - rewrite E. apply G.
  - intros [= <-]. apply agree_id.
  - discriminate.
  - intros [= <-]. exact A.
  - rewrite E in G. intros [= <-]. rewrite Ec. now apply G.
  - rewrite E in G. intros [= <-]. now apply G.
  - assert (agree (co_template s) c') by (destruct E as [E|E]; rewrite E in G; now apply G).
    destruct E' as [->| ->]; intros [= <-]; assumption.
Qed.
Lemma exec_keeps g h : forall s s' es, keeps g s -> exec life_step s h = Ret (s', es) -> keeps g s'.
Proof.
  induction h as [|o h IH]; intros s s' es K H; cbn in H; [now injection H as <- <-|].
  destruct (life_step s o) as [[s1 r]|] eqn:St; [|discriminate].
  destruct (exec life_step s1 h) as [[s2 rs]|] eqn:E; [|discriminate].
  injection H as <- <-. exact (IH _ _ _ (step_keeps _ _ _ _ _ K St) E).
Qed.

(* nothing leads back to the first phase, so a group is created once *)
Lemma step_started s o s' es : life_step s o = Ret (s', es) -> co_phase s <> NoState -> co_phase s' <> NoState /\ none_of is_create_event es.
Proof.
  intros H N. destruct (step_moved _ _ _ _ H) as (M & _).
  destruct M as [E n|id tx rand E _ _ _|p tx _ E n|p tx l _ E A n|l l' _ E Ec n|l _ E n|c _ E n]; try (split; [congruence|exact n]).
  - contradiction.
  - split; [destruct E as [-> | ->]; discriminate|exact n].
Qed.
Lemma exec_started h : forall s s' es, exec life_step s h = Ret (s', es) -> co_phase s <> NoState -> co_phase s' <> NoState /\ none_of is_create_event (concat es).
Proof.
  induction h as [|o h IH]; intros s s' es H N; cbn in H; [injection H as <- <-; split; [easy|intros ? []]|].
  destruct (life_step s o) as [[s1 r]|] eqn:St; [|discriminate].
  destruct (exec life_step s1 h) as [[s2 rs]|] eqn:E; [|discriminate].
  injection H as <- <-. destruct (step_started _ _ _ _ St N) as [N1 n1]. destruct (IH _ _ _ E N1) as [N2 n2].
  split; [easy|]. cbn. now apply none_of_app.
Qed.
Lemma none_count {X} (f : X -> bool) l : none_of f l -> count f l = 0.
Proof.
  induction l as [|x l IH]; [easy|]. intros H. apply none_of_cons in H as [H1 H2]. now rewrite count_cons, H1, (IH H2).
Qed.
Lemma exec_created h : forall s s' es, exec life_step s h = Ret (s', es) -> count is_create_event (concat es) <= 1.
Proof.
  induction h as [|o h IH]; intros s s' es H; cbn in H; [now injection H as <- <-|].
  destruct (life_step s o) as [[s1 r]|] eqn:St; [|discriminate].
  destruct (exec life_step s1 h) as [[s2 rs]|] eqn:E; [|discriminate].
  injection H as <- <-. cbn [concat]. rewrite count_app. specialize (IH _ _ _ E).
  destruct (step_moved _ _ _ _ St) as (M & _).
  destruct M as [? n|id tx rand _ _ P ->|p tx _ _ n|p tx l _ _ _ n|l l' _ _ _ n|l _ _ n|c _ _ n]; try (rewrite (none_count _ _ n); lia).
  assert (N : co_phase s1 <> NoState) by (rewrite P; discriminate).
  rewrite (none_count _ (concat rs)); [cbn; lia|]. now apply (exec_started _ _ _ _ E).
Qed.

(* the group stays unless a request to join is followed *)
Lemma step_group s o s' es c : life_step s o = Ret (s', es) -> group_of s = Some c ->
  group_of s' = Some c \/ join_followed s o.
Proof.
  intros H G. destruct (step_moved _ _ _ _ H) as (M & _). unfold group_of in *.
  destruct M as [E _|id tx rand E _ _ _|p tx J _ _|p tx l E _ _ _|l l' E -> Ec _|l E -> _|c' E E' _].
  - left. now rewrite E.
  - rewrite E in G. discriminate.
  - now right.
  - rewrite E in G. discriminate.
  - rewrite E in G. left. congruence.
  - rewrite E in G. now left.
  - left. assert (c' = c) as -> by (destruct E as [E|E]; rewrite E in G; congruence). destruct E' as [-> | ->]; reflexivity.
Qed.
Lemma exec_group h : forall s s' es c, exec life_step s h = Ret (s', es) -> group_of s = Some c ->
  group_of s' = Some c \/
  exists h1 o h2 s1 es1, h = h1 ++ o :: h2 /\ exec life_step s h1 = Ret (s1, es1) /\ group_of s1 = Some c /\ join_followed s1 o.
Proof.
  induction h as [|o h IH]; intros s s' es c H G; cbn in H; [injection H as <- <-; now left|].
  destruct (life_step s o) as [[s1 r]|] eqn:St; [|discriminate].
  destruct (exec life_step s1 h) as [[s2 rs]|] eqn:E; [|discriminate].
  injection H as <- <-. destruct (step_group _ _ _ _ _ St G) as [G1|J].
  - destruct (IH _ _ _ _ E G1) as [?|(h1 & o' & h2 & s3 & es3 & -> & E3 & G3 & J3)]; [now left|right].
    exists (o :: h1), o', h2, s3, (r :: es3). cbn. now rewrite St, E3.
  - right. exists [], o, h, s, []. now cbn.
Qed.

(* ---- one attempt to join ---- *)
Definition is_repl (c : call) : bool := match c with CReplicate _ _ _ => true | _ => false end.
Definition repls (s : core) : list call := filter is_repl (co_calls s).
Lemma take_nth_length {X} i : forall (l : list X) x, nth_error l i = Some x -> exists l1 l2, l = l1 ++ x :: l2 /\ take_nth i l = l1 ++ l2.
Proof.
  induction i as [|i IH]; intros [|y l] x; cbn; try discriminate.
  - intros [= ->]. exists [], l. easy.
  - intros H. destruct (IH _ _ H) as (l1 & l2 & -> & ->). exists (y :: l1), l2. easy.
Qed.
(* before and after the one request to join *)
Definition fresh_ok (s : core) : Prop := repls s = [] /\ match co_phase s with Waiting _ _ | Loading _ => False | _ => co_calls s = [] end.
Definition once_ok (s : core) : Prop :=
  match co_phase s with
  | Loading l => if ld_started l then repls s = [CReplicate (ld_from l) (ld_tx l) (ld_repl l)] \/ repls s = [] else repls s = []
  | _ => repls s = []
  end.
Lemma fresh_once s : fresh_ok s -> once_ok s.
Proof. unfold fresh_ok, once_ok. destruct (co_phase s); tauto. Qed.

Lemma rr_once s en r s' es : (match co_phase s with Loading l => ld_started l = false | _ => True end) -> once_ok s -> request_replication s en r = (s', es) -> once_ok s'.
Proof.
  unfold request_replication. intros F O H. destruct (co_phase s) eqn:P; try now injection H as <- <-.
  rewrite F in H. cbn [negb andb] in H. destruct en; cbn [negb] in H; injection H as <- <-; [|easy].
  unfold once_ok in *. rewrite P, F in O. cbn. left. unfold repls in *. cbn. now rewrite filter_app, O.
Qed.

Lemma step_fresh s o s' es : fresh_ok s -> is_join o = false -> life_step s o = Ret (s', es) -> fresh_ok s'.
Proof.
  intros [R C] J H. destruct o as [tx rand|tx peer cn|from en r|i a|me|r]; cbn [life_step] in H.
  - injection H as H. unfold create in H. destruct (co_phase s) eqn:P; [destruct rand as [id|]|..]; injection H as <- <-; unfold fresh_ok, repls in *; cbn; rewrite ?P; easy.
  - destruct peer; [discriminate J|]. unfold join in H. destruct (co_phase s) eqn:P; injection H as <- <-; unfold fresh_ok; rewrite P; easy.
  - unfold on_connect in H. destruct (co_phase s) eqn:P; try contradiction; injection H as <- <-; unfold fresh_ok; rewrite P; easy.
  - unfold on_answer in H. assert (C' : co_calls s = []) by (destruct (co_phase s); easy). rewrite C' in H.
    destruct i; injection H as <- <-; now split.
  - unfold on_member in H. destruct (co_phase s) eqn:P; try discriminate H; injection H as <- <-; destruct me; unfold fresh_ok, repls in *; cbn; rewrite ?P; easy.
  - injection H as H. unfold reconfigure in H. destruct (valid_econf _); injection H as <- <-; split; easy.
Qed.
Lemma step_join_once s o s' es : fresh_ok s -> life_step s o = Ret (s', es) -> is_join o = true -> once_ok s'.
Proof.
  intros [R C] H J. destruct o as [|tx [p|] cn| | | |]; try discriminate J. cbn in H. unfold join in H.
  assert (O : forall q tx', once_ok (set_phase (Waiting q tx') s)) by (intros; exact R).
  destruct (co_phase s) eqn:P; try contradiction.
  1,2: destruct cn; cbn in H; injection H as <- <-; [unfold once_ok, repls in *; cbn; now rewrite filter_app, R|apply O].
  injection H as <- <-. unfold once_ok. now rewrite P.
Qed.
Lemma remove_get l1 p tx l2 : filter is_repl (l1 ++ CGetRaft p tx :: l2) = filter is_repl (l1 ++ l2).
Proof. now rewrite !filter_app. Qed.
Lemma remove_repl l1 p tx r l2 x : filter is_repl (l1 ++ CReplicate p tx r :: l2) = [x] -> x = CReplicate p tx r /\ filter is_repl (l1 ++ l2) = [].
Proof.
  rewrite !filter_app. cbn. destruct (filter is_repl l1) as [|y l1']; cbn; [intros [= <- ->]; easy|].
  intros [= -> H]. destruct l1'; discriminate.
Qed.
Lemma remove_none l1 p tx r l2 : filter is_repl (l1 ++ CReplicate p tx r :: l2) <> [].
Proof. rewrite filter_app. cbn. destruct (filter is_repl l1); discriminate. Qed.

Lemma step_once s o s' es : once_ok s -> is_join o = false -> life_step s o = Ret (s', es) -> once_ok s'.
Proof.
  intros O J H. destruct o as [tx rand|tx peer cn|from en r|i a|me|r]; cbn [life_step] in H.
  - injection H as H. unfold create in H. destruct (co_phase s) eqn:P; [destruct rand as [id|]|..]; injection H as <- <-; try exact O.
    unfold once_ok, repls in *; rewrite P in O; cbn; exact O.
  - destruct peer; [discriminate J|]. unfold join in H. destruct (co_phase s) eqn:P; injection H as <- <-; exact O.
  - unfold on_connect in H. destruct (co_phase s) eqn:P; try (injection H as <- <-; exact O).
    + destruct (beq from peer); [|injection H as <- <-; exact O].
      unfold join_first in H. rewrite P in H. cbn in H. injection H as <- <-. unfold once_ok, repls in *. cbn. rewrite P in O |- *. now rewrite filter_app, O.
    + destruct (ld_started l) eqn:St; cbn [negb] in H; [injection H as <- <-; exact O|]. injection H as H.
      eapply rr_once; [|exact O|exact H]. now rewrite P.
  - unfold on_answer in H. destruct (nth_error (co_calls s) i) as [c|] eqn:Nt; [|injection H as <- <-; exact O].
    destruct (take_nth_length _ _ _ Nt) as (l1 & l2 & E & T). rewrite T in H. destruct c as [p tx|p tx rp].
    + injection H as H. set (s0 := Core (co_template s) (co_econf s) (co_phase s) (l1 ++ l2)) in *.
      assert (R0 : repls s0 = repls s) by (unfold repls, s0; cbn; rewrite E; symmetry; apply remove_get).
      assert (O0 : once_ok s0) by (unfold once_ok in *; rewrite R0; exact O).
      unfold on_get_raft in H. destruct a as [|g en r|rf]; try (injection H as <- <-; exact O0).
      destruct (co_phase s0) eqn:P; try (injection H as <- <-; exact O0).
      destruct (negb _); [injection H as <- <-; exact O0|]. destruct (g_members g =? 0); [injection H as <- <-; exact O0|].
      destruct (negb _); [injection H as <- <-; exact O0|]. destruct (negb _); [injection H as <- <-; exact O0|].
      destruct (negb _); [injection H as <- <-; exact O0|].
      eapply rr_once; [|..|exact H]; [easy|]. unfold once_ok in O0 |- *. rewrite P in O0. exact O0.
    + set (s0 := Core (co_template s) (co_econf s) (co_phase s) (l1 ++ l2)) in *.
      assert (R0 : exists l, co_phase s = Loading l /\ ld_started l = true /\ repls s0 = []).
      { unfold once_ok, repls in O. rewrite E in O. unfold repls, s0; cbn [co_calls].
        destruct (co_phase s) eqn:P; try (now destruct (remove_none _ _ _ _ _ O)).
        destruct (ld_started l) eqn:St; [|now destruct (remove_none _ _ _ _ _ O)]. destruct O as [O|O]; [|now destruct (remove_none _ _ _ _ _ O)].
        apply remove_repl in O as [_ O]. eauto. }
      destruct R0 as (l & P & St & R0).
      assert (O0 : once_ok s0) by (unfold once_ok, s0; cbn [co_phase]; rewrite P, St; now right).
      unfold on_replicated in H. destruct a as [|g en r|rf]; try (injection H as <- <-; exact O0).
      cbn [co_phase s0] in H. rewrite P in H. destruct rf; cbn [negb] in H; injection H as <- <-; [exact R0|exact O0].
  - unfold on_member in H. destruct (co_phase s) eqn:P; try discriminate H; injection H as <- <-; destruct me; unfold once_ok, repls in *; cbn; rewrite ?P in *; exact O.
  - injection H as H. unfold reconfigure in H. destruct (valid_econf _); injection H as <- <-; exact O.
Qed.

Lemma exec_once h : forall s s' es, once_ok s -> none_of is_join h -> exec life_step s h = Ret (s', es) -> once_ok s'.
Proof.
  induction h as [|o h IH]; intros s s' es O N H; cbn in H; [now injection H as <- <-|].
  destruct (life_step s o) as [[s1 r]|] eqn:St; [|discriminate].
  destruct (exec life_step s1 h) as [[s2 rs]|] eqn:E; [|discriminate].
  injection H as <- <-. apply none_of_cons in N as [N1 N2]. exact (IH _ _ _ (step_once _ _ _ _ O N1 St) N2 E).
Qed.
Lemma exec_fresh h : forall s s' es, fresh_ok s -> count is_join h <= 1 -> exec life_step s h = Ret (s', es) -> once_ok s'.
Proof.
  induction h as [|o h IH]; intros s s' es F C H; cbn in H; [injection H as <- <-; now apply fresh_once|].
  destruct (life_step s o) as [[s1 r]|] eqn:St; [|discriminate].
  destruct (exec life_step s1 h) as [[s2 rs]|] eqn:E; [|discriminate].
  injection H as <- <-. rewrite count_cons in C. destruct (is_join o) eqn:J.
  - eapply exec_once; [exact (step_join_once _ _ _ _ F St J)| |exact E].
    assert (C0 : count is_join h = 0) by lia. clear -C0. intros x Hin.
    destruct (is_join x) eqn:Jx; [|easy]. apply in_split in Hin as (a & b & ->). rewrite count_app, count_cons, Jx in C0. lia.
  - eapply IH; [exact (step_fresh _ _ _ _ F J St)|lia|exact E].
Qed.
Lemma merged_as_asked r : as_asked r (merge_econf default_econf r).
Proof.
  assert (G : forall d x, or_default x d (merge d x)) by (intros d x; unfold or_default, merge; destruct (x =? 0) eqn:Ex; split; intros; lia).
  constructor; apply G.
Qed.
Lemma as_asked_unique r c c' : as_asked r c -> as_asked r c' -> c = c'.
Proof.
  assert (G : forall x d a b, or_default x d a -> or_default x d b -> a = b).
  { intros x d a b [H1 H2] [H3 H4]. destruct (N.eq_dec x 0); [rewrite H1, H3|rewrite H2, H4]; auto. }
  intros [] []. destruct c, c'; cbn in *. f_equal; eapply G; eassumption.
Qed.
