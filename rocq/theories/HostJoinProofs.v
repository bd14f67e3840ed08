(* Hosts that find or create a group: proofs. *)
From Verif Require Import HostJoin HostJoinSpec.

Lemma creations_app a b : creations (a ++ b) = (creations a + creations b)%nat.
Proof. unfold creations. now rewrite filter_app, app_length. Qed.
Lemma creations_0 a h ok : creations a = 0%nat -> ~ In (h, ACreate ok) a.
Proof.
  intros H Hin. unfold creations in H. apply length_zero_iff_nil in H.
  assert (X : In (h, ACreate ok) (filter (fun x => match snd x with ACreate _ => true | _ => false end) a)) by (apply filter_In; auto).
  rewrite H in X. destruct X.
Qed.
Lemma in_put {V} k v (m : list (bytes * V)) k' v' : In (k', v') (put k v m) -> (k' = k /\ v' = v) \/ In (k', v') m.
Proof.
  induction m as [|[a b] m IH]; cbn [put]; [intros [H|[]]; injection H as <- <-; auto|].
  destruct (bcmp k a); intros [H|H]; try (injection H as <- <-); auto; try (now right; right); try (now right; left).
  destruct (IH H) as [X|X]; [auto|right; now right].
Qed.
Lemma in_del {V} k (m : list (bytes * V)) x : In x (del k m) -> In x m.
Proof. induction m as [|[a b] m IH]; cbn [del]; [auto|]. destruct (beq k a); [now right|]. intros [H|H]; [now left|right; auto]. Qed.
Lemma has_more w w' h : incl (j_acts w) (j_acts w') -> has_group w h -> has_group w' h.
Proof. intros H [X|[p X]]; [left|right; exists p]; auto. Qed.
Lemma in_group_more a b c h : incl a b -> in_group a c h -> in_group b c h.
Proof. intros H. induction 1; [apply in_creator; auto|eapply in_joined; eauto]. Qed.

(* members are shown only if they have a group *)
Definition shown (w : jworld) (l : list (bytes * pentry)) : Prop :=
  forall k e, In (k, e) l -> pe_member e = true -> has_group w k.
Definition phase_ok (w : jworld) (h : bytes) (p : jphase) : Prop :=
  match p with
  | JList found => shown w found
  | JCreate => j_lock w = Some h /\ creations (j_acts w) = 0%nat
  | JJoin p => has_group w p
  | JAttest | JMember => has_group w h
  | _ => True
  end.
Record jinv (w : jworld) : Prop := MkJ {
  ji_peers : shown w (j_peers w);
  ji_phase : forall h x, lookup h (j_hosts w) = Some x -> phase_ok w h (h_phase x);
  ji_lock : match j_lock w with None => creations (j_acts w) = 0%nat
            | Some c => (creations (j_acts w) <= 1)%nat /\ forall h ok, In (h, ACreate ok) (j_acts w) -> h = c end;
  ji_group : forall h, has_group w h -> exists c, in_group (j_acts w) c h }.

Lemma jinv_start : jinv jstart.
Proof.
  constructor; cbn; try reflexivity.
  - intros k e [].
  - intros h x H; discriminate H.
  - intros h [[]|[p []]].
Qed.
Lemma shown_put w l k e : shown w l -> (pe_member e = true -> has_group w k) -> shown w (put k e l).
Proof. intros H He k' e' Hin Hm. apply in_put in Hin as [[-> ->]|Hin]; [auto|eapply H; eauto]. Qed.
(* a step that only moves one host on *)
Lemma jinv_phase w h x p : jinv w -> lookup h (j_hosts w) = Some x -> phase_ok w h p -> jinv (set_phase h x p w).
Proof.
  intros [I1 I2 I3 I4] Hl Hp. constructor; cbn [set_phase j_peers j_lock j_hosts j_acts]; auto.
  intros h' x' Hl'. destruct (list_eq_dec N.eq_dec h' h) as [->|Hne].
  - rewrite lookup_put_same in Hl'. injection Hl' as <-. exact Hp.
  - rewrite lookup_put_other in Hl' by assumption. exact (I2 _ _ Hl').
Qed.
Lemma jinv_write w h e : jinv w -> (pe_member e = true -> has_group w h) -> jinv (write_peer h e w).
Proof. intros [I1 I2 I3 I4] H. constructor; cbn [write_peer j_peers j_lock j_hosts j_acts]; auto. now apply shown_put. Qed.
Lemma phase_more w w' h p : incl (j_acts w) (j_acts w') -> (p <> JCreate) -> phase_ok w h p -> phase_ok w' h p.
Proof. intros H Hc. destruct p; cbn; auto; try (apply has_more; auto); [|congruence]. intros X k e Y Z. eapply has_more; eauto. Qed.
Lemma jinv_step w ev : jinv w -> jinv (jstep w ev).
Proof.
  intros HI. pose proof HI as [I1 I2 I3 I4].
  assert (Hon : forall h f, (forall x, lookup h (j_hosts w) = Some x -> jinv (f x)) -> jinv (on_host h w f)).
  { intros h f Hf. unfold on_host. destruct (lookup h (j_hosts w)) as [x|] eqn:E; auto. }
  destruct ev as [h addr|h stored ok|h k|h pick|h|h r|h ok|h leader now|k|h]; cbn [jstep]; try (apply Hon; intros x Hl; pose proof (I2 _ _ Hl) as Hx).
  - destruct (lookup h (j_hosts w)) as [x|] eqn:El; [assumption|]. constructor; cbn; auto.
    intros h' x' Hl'. destruct (list_eq_dec N.eq_dec h' h) as [->|Hne].
    + rewrite lookup_put_same in Hl'. injection Hl' as <-. exact I.
    + rewrite lookup_put_other in Hl' by assumption. exact (I2 _ _ Hl').
  - destruct (h_phase x) eqn:Ep; auto. cbv zeta.
    assert (Hw : jinv (if stored then write_peer h (PEntry (h_addr x) false false 0%Z) w else w)) by (destruct stored; [apply jinv_write; [assumption|discriminate]|assumption]).
    destruct (ok && stored)%bool; [|assumption]. apply jinv_phase; [assumption|destruct stored; assumption|]. intros k e [].
  - destruct (h_phase x) as [|found| | | | | |] eqn:Ep; auto. destruct (lookup k (j_peers w)) as [e|] eqn:Ek; [|assumption].
    apply jinv_phase; auto. cbn [phase_ok] in *. apply shown_put; [assumption|]. intros Hm. exact (I1 _ _ (lookup_in _ _ _ Ek) Hm).
  - destruct (h_phase x) as [|found| | | | | |] eqn:Ep; auto. destruct (candidates h (h_addr x) found) as [|c cs] eqn:Ec; [now apply jinv_phase|].
    destruct (first_choice pick (c :: cs)) eqn:Ef; [|assumption]. apply jinv_phase; auto. cbn [phase_ok] in *.
    unfold first_choice in Ef. destruct (lookup pick (c :: cs)) as [e|] eqn:El; [|discriminate]. apply lookup_in in El. rewrite <- Ec in El.
    unfold candidates in El. apply filter_In in El as [X Y]. apply andb_prop in Y as [_ Y]. exact (Hx _ _ X Y).
  - destruct (h_phase x) as [|found| | | | | |] eqn:Ep; auto. apply jinv_phase; auto. intros k e [].
  - destruct (h_phase x) eqn:Ep; auto.
    assert (Hn : forall w', jinv w' -> lookup h (j_hosts w') = Some x -> jinv (set_phase h x (JList []) w')) by (intros w' H1 H2; apply jinv_phase; auto; intros k e []).
    assert (Hlk : j_lock w = None -> jinv (JWorld (j_peers w) (Some h) (j_hosts w) (j_acts w))).
    { intros El. rewrite El in I3. constructor; cbn [j_peers j_lock j_hosts j_acts].
      - exact I1.
      - intros h' x' Hl'. specialize (I2 _ _ Hl'). destruct (h_phase x') as [|found| | |p| | |]; cbn [phase_ok] in *; auto. destruct I2 as [I2 _]; congruence.
      - split; [lia|]. intros h' ok Hin. exfalso. exact (creations_0 _ _ _ I3 Hin).
      - exact I4. }
    destruct r; [| |apply Hn; auto]; (destruct (j_lock w) as [c|] eqn:El; [apply Hn; auto|]).
    + apply jinv_phase; [now apply Hlk|assumption|]. cbn. auto.
    + apply Hn; [now apply Hlk|assumption].
  - assert (Hact : forall a p, (p <> JCreate) -> (forall h' x', h' <> h -> lookup h' (j_hosts w) = Some x' -> h_phase x' <> JCreate \/ creations [(h, a)] = 0%nat) ->
        phase_ok (act_of h a w) h p -> match j_lock w with None => creations [(h, a)] = 0%nat | Some c => creations [(h, a)] = 0%nat \/ (creations (j_acts w) = 0%nat /\ h = c) end ->
        (forall h', has_group (act_of h a w) h' -> has_group w h' \/ exists c, in_group (j_acts w ++ [(h, a)]) c h') ->
        jinv (act_of h a (set_phase h x p w))).
    { intros a p Hp Hoth Hok Hlk Hg. assert (Hin : incl (j_acts w) (j_acts w ++ [(h, a)])) by (intros y Hy; apply in_or_app; now left).
      constructor; cbn [act_of set_phase j_peers j_lock j_hosts j_acts].
      - intros k e X Y. eapply has_more; [|exact (I1 k e X Y)]. exact Hin.
      - intros h' x' Hl'. destruct (list_eq_dec N.eq_dec h' h) as [->|Hne].
        + rewrite lookup_put_same in Hl'. injection Hl' as <-. cbn [h_phase]. destruct p; try exact Hok; try exact I; congruence.
        + rewrite lookup_put_other in Hl' by assumption. pose proof (I2 _ _ Hl') as X. destruct (Hoth _ _ Hne Hl') as [Y|Y].
          * eapply phase_more; [|exact Y|exact X]. exact Hin.
          * destruct (h_phase x') as [|found| | |q| | |]; cbn [phase_ok] in *; auto; try (eapply has_more; [|exact X]; exact Hin).
            -- intros k e Z1 Z2. eapply has_more; [|exact (X k e Z1 Z2)]. exact Hin.
            -- destruct X as [X1 X2]. split; [assumption|]. cbn [act_of set_phase j_acts]. rewrite creations_app. lia.
      - destruct (j_lock w) as [c|].
        + destruct I3 as [A B]. split; [rewrite creations_app; destruct Hlk as [->|[-> _]]; [lia|unfold creations; cbn; destruct a; cbn; lia]|].
          intros h' ok' Hi. apply in_app_or in Hi as [Hi|[Hi|[]]]; [eapply B; eauto|]. injection Hi as <- ->. destruct Hlk as [Hc|[_ Hc]]; [discriminate Hc|assumption].
        + rewrite creations_app. lia.
      - intros h' Hh. destruct (Hg h' Hh) as [X|X]; [|exact X]. destruct (I4 h' X) as [c Hc]. exists c. eapply in_group_more; eauto. }
    destruct (h_phase x) as [|found| | |p| | |] eqn:Ep; auto.
    + cbn [phase_ok] in Hx. destruct Hx as [Hx1 Hx2]. apply Hact.
      * destruct ok; discriminate.
      * intros h' x' Hne Hl'. left. intros Y. pose proof (I2 _ _ Hl') as Z. rewrite Y in Z. cbn in Z. destruct Z as [Z _]. congruence.
      * destruct ok; [|exact I]. left. cbn. apply in_or_app. right. now left.
      * rewrite Hx1. right. auto.
      * intros h' [X|[q X]]; cbn in X; apply in_app_or in X as [X|[X|[]]]; try discriminate X.
        -- left. now left.
        -- injection X as <- ->. right. exists h. apply in_creator. apply in_or_app. right. now left.
        -- left. right. eauto.
    + cbn [phase_ok] in Hx. apply Hact.
      * destruct ok; discriminate.
      * intros h' x' Hne Hl'. now right.
      * destruct ok; [|exact I]. right. exists p. cbn. apply in_or_app. right. now left.
      * destruct (j_lock w); [left|]; reflexivity.
      * intros h' [X|[q X]]; cbn in X; apply in_app_or in X as [X|[X|[]]]; try discriminate X.
        -- left. now left.
        -- left. right. eauto.
        -- injection X as <- <- ->. right. destruct (I4 p Hx) as [c Hc]. exists c. eapply in_joined; [apply in_or_app; right; now left|].
           eapply in_group_more; [|exact Hc]. intros y Hy. apply in_or_app. now left.
    + apply jinv_phase; auto. destruct ok; [exact Hx|exact I].
  - destruct (h_phase x) eqn:Ep; auto. apply jinv_write; auto.
  - constructor; cbn; auto. intros k' e Hin. apply in_del in Hin. now apply I1.
  - apply jinv_phase; auto. exact I.
Qed.
Lemma jinv_run evs : forall w, jinv w -> jinv (jrun w evs).
Proof. induction evs as [|ev evs IH]; intros w H; [exact H|]. cbn [jrun fold_left]. apply IH, jinv_step, H. Qed.
Lemma jreached_inv w : jreached w -> jinv w.
Proof. intros [evs ->]. apply jinv_run, jinv_start. Qed.
Lemma one_creator w c1 c2 h1 h2 : jinv w -> in_group (j_acts w) c1 h1 -> in_group (j_acts w) c2 h2 -> c1 = c2.
Proof.
  intros [_ _ I3 _] H1 H2. assert (X : forall c h, in_group (j_acts w) c h -> In (c, ACreate true) (j_acts w)) by (intros c h; induction 1; auto).
  apply X in H1, H2. destruct (j_lock w); [|exfalso; eapply creations_0; eauto]. destruct I3 as [_ I3]. rewrite (I3 _ _ H1), (I3 _ _ H2). reflexivity.
Qed.
Lemma one_group w : jreached w -> (creations (j_acts w) <= 1)%nat /\
  ((exists h, has_group w h) -> exists c, forall h, has_group w h -> in_group (j_acts w) c h) /\
  (forall h, is_member w h \/ announced w h -> has_group w h).
Proof.
  intros Hr. pose proof (jreached_inv w Hr) as HI. pose proof HI as [I1 I2 I3 I4]. split; [destruct (j_lock w); [apply I3|lia]|]. split.
  - intros [h0 H0]. destruct (I4 h0 H0) as [c Hc]. exists c. intros h Hh. destruct (I4 h Hh) as [c' Hc']. rewrite (one_creator w c c' h0 h HI Hc Hc'). assumption.
  - intros h [(x & X1 & X2)|(e & X1 & X2)].
    + pose proof (I2 _ _ X1) as X. rewrite X2 in X. exact X.
    + exact (I1 _ _ (lookup_in _ _ _ X1) X2).
Qed.

(* --- nobody gets in --------------------------------------------------------------- *)
Lemma no_candidates h addr found : (forall k e, In (k, e) found -> pe_member e = false) -> candidates h addr found = [].
Proof.
  intros H. unfold candidates. destruct (filter _ found) as [|[k e] l] eqn:E; [reflexivity|].
  assert (X : In (k, e) (filter (fun kv => (negb (beq (fst kv) h || beq (pe_addr (snd kv)) addr) && pe_member (snd kv))%bool) found)) by (rewrite E; now left).
  apply filter_In in X as [X Y]. cbn [fst snd] in Y. rewrite (H _ _ X), Bool.andb_false_r in Y. discriminate.
Qed.
Lemma stuck_step w ev : stuck w -> stuck (jstep w ev).
Proof.
  intros HB. pose proof HB as (B1 & B2 & B3).
  assert (Hon : forall h f, (forall x, lookup h (j_hosts w) = Some x -> stuck (f x)) -> stuck (on_host h w f)).
  { intros h f Hf. unfold on_host. destruct (lookup h (j_hosts w)) as [x|] eqn:E; auto. }
  assert (Hph : forall w' h x p, stuck w' -> match p with JCreate | JJoin _ | JAttest | JMember => False
      | JList found => forall k e, In (k, e) found -> pe_member e = false | _ => True end -> stuck (set_phase h x p w')).
  { intros w' h x p (C1 & C2 & C3) Hp. split; [exact C1|]. split; [exact C2|]. cbn. intros h' x' Hl'. destruct (list_eq_dec N.eq_dec h' h) as [->|Hne].
    - rewrite lookup_put_same in Hl'. injection Hl' as <-. exact Hp.
    - rewrite lookup_put_other in Hl' by assumption. exact (C3 _ _ Hl'). }
  destruct ev as [h addr|h stored ok|h k|h pick|h|h r|h ok|h leader now|k|h]; cbn [jstep]; try (apply Hon; intros x Hl; pose proof (B3 _ _ Hl) as Hx).
  - destruct (lookup h (j_hosts w)) as [x|] eqn:El; [assumption|]. exact (Hph w h (JHost addr JInsert) JInsert HB I).
  - destruct (h_phase x) eqn:Ep; auto. cbv zeta.
    assert (Hw : stuck (if stored then write_peer h (PEntry (h_addr x) false false 0%Z) w else w)).
    { destruct stored; [|assumption]. split; [exact B1|]. split; [|exact B3]. intros k e Hin. apply in_put in Hin as [[_ ->]|Hin]; [reflexivity|eauto]. }
    destruct (ok && stored)%bool; [|assumption]. apply Hph; [assumption|]. intros k e [].
  - destruct (h_phase x) as [|found| | | | | |] eqn:Ep; auto. destruct (lookup k (j_peers w)) as [e|] eqn:Ek; [|assumption].
    apply Hph; [assumption|]. intros k' e' Hin. apply in_put in Hin as [[-> ->]|Hin]; [|eauto]. apply lookup_in in Ek. eauto.
  - destruct (h_phase x) as [|found| | | | | |] eqn:Ep; auto. rewrite (no_candidates h (h_addr x) found Hx). apply Hph; auto.
  - destruct (h_phase x) as [|found| | | | | |] eqn:Ep; auto. apply Hph; auto. intros k e [].
  - destruct (h_phase x) eqn:Ep; auto. destruct (j_lock w) eqn:El; [|congruence]. destruct r; apply Hph; auto; intros k e [].
  - destruct (h_phase x) eqn:Ep; auto; destruct Hx.
  - destruct (h_phase x) eqn:Ep; auto; destruct Hx.
  - split; [exact B1|]. split; [|exact B3]. cbn. intros k' e Hin. apply in_del in Hin. eauto.
  - apply Hph; auto.
Qed.
Lemma stuck_run evs : forall w, stuck w -> stuck (jrun w evs).
Proof. induction evs as [|ev evs IH]; intros w H; [exact H|]. cbn [jrun fold_left]. apply IH, stuck_step, H. Qed.
Lemma stuck_nobody w h : stuck w -> ~ is_member w h.
Proof. intros (_ & _ & B) (x & H1 & H2). specialize (B _ _ H1). now rewrite H2 in B. Qed.

(* --- through whom hosts join ------------------------------------------------------- *)
Definition addr_of (w : jworld) (k a : bytes) : Prop := exists x, lookup k (j_hosts w) = Some x /\ h_addr x = a.
Definition from_hosts (w : jworld) (l : list (bytes * pentry)) : Prop := forall k e, In (k, e) l -> addr_of w k (pe_addr e).
Record kinv (w : jworld) : Prop := MkK {
  ki_peers : from_hosts w (j_peers w);
  ki_found : forall h x found, lookup h (j_hosts w) = Some x -> h_phase x = JList found -> from_hosts w found;
  ki_join : forall h x p, lookup h (j_hosts w) = Some x -> h_phase x = JJoin p -> other_host w h p;
  ki_acts : forall a b h p ok, j_acts w = a ++ (h, AJoin p ok) :: b -> other_host w h p /\ had_group a p;
  ki_actor : forall h a, In (h, a) (j_acts w) -> lookup h (j_hosts w) <> None }.
(* hosts stay, with their addresses *)
Definition keeps (w w' : jworld) : Prop := forall k a, addr_of w k a -> addr_of w' k a.
Lemma from_keeps w w' l : keeps w w' -> from_hosts w l -> from_hosts w' l.
Proof. intros H X k e Y. apply H. eauto. Qed.
Lemma other_keeps w w' h p : keeps w w' -> other_host w h p -> other_host w' h p.
Proof.
  intros H [X (xh & xp & A & B & C)]. split; [exact X|]. destruct (H h (h_addr xh)) as (yh & D & E); [eexists; eauto|].
  destruct (H p (h_addr xp)) as (yp & F & G); [eexists; eauto|]. exists yh, yp. rewrite E, G. auto.
Qed.
Lemma keeps_phase w h x p : lookup h (j_hosts w) = Some x -> keeps w (set_phase h x p w).
Proof.
  intros Hl k a (y & A & B). destruct (list_eq_dec N.eq_dec k h) as [->|Hne].
  - exists (JHost (h_addr x) p). cbn. rewrite lookup_put_same. split; [reflexivity|congruence].
  - exists y. cbn. rewrite lookup_put_other by assumption. auto.
Qed.
Lemma kinv_phase w h x p : kinv w -> lookup h (j_hosts w) = Some x ->
  match p with JList found => from_hosts w found | JJoin q => other_host w h q | _ => True end -> kinv (set_phase h x p w).
Proof.
  intros [K1 K2 K3 K4 K5] Hl Hp. pose proof (keeps_phase w h x p Hl) as Hk. constructor; cbn [set_phase j_peers j_lock j_acts].
  - eapply from_keeps; eauto.
  - intros h' x' found Hl' Hf. eapply from_keeps; [exact Hk|]. cbn in Hl'. destruct (list_eq_dec N.eq_dec h' h) as [->|Hne].
    + rewrite lookup_put_same in Hl'. injection Hl' as <-. cbn in Hf. rewrite Hf in Hp. exact Hp.
    + rewrite lookup_put_other in Hl' by assumption. eauto.
  - intros h' x' q Hl' Hf. eapply other_keeps; [exact Hk|]. cbn in Hl'. destruct (list_eq_dec N.eq_dec h' h) as [->|Hne].
    + rewrite lookup_put_same in Hl'. injection Hl' as <-. cbn in Hf. rewrite Hf in Hp. exact Hp.
    + rewrite lookup_put_other in Hl' by assumption. eauto.
  - intros a b h' q ok E. destruct (K4 _ _ _ _ _ E) as [X Y]. split; [eapply other_keeps; eauto|exact Y].
  - intros h' a Hin. cbn. destruct (list_eq_dec N.eq_dec h' h) as [->|Hne]; [rewrite lookup_put_same; discriminate|].
    rewrite lookup_put_other by assumption. eauto.
Qed.
Lemma kinv_write w h e : kinv w -> addr_of w h (pe_addr e) -> kinv (write_peer h e w).
Proof.
  intros [K1 K2 K3 K4 K5] He. constructor; cbn [write_peer j_peers j_hosts j_acts]; auto.
  intros k e' Hin. cbn in Hin. apply in_put in Hin as [[-> ->]|Hin]; [exact He|exact (K1 _ _ Hin)].
Qed.
Lemma kinv_act w h x a : kinv w -> lookup h (j_hosts w) = Some x ->
  match a with AJoin p _ => other_host w h p /\ had_group (j_acts w) p | _ => True end -> kinv (act_of h a w).
Proof.
  intros [K1 K2 K3 K4 K5] Hl Ha. constructor; cbn [act_of j_peers j_hosts j_acts]; auto.
  - intros a1 b h' p ok E. destruct b as [|y b] using rev_ind.
    + apply app_inj_tail in E as [<- E]. injection E as <- ->. exact Ha.
    + rewrite app_comm_cons, app_assoc in E. apply app_inj_tail in E as [E _]. exact (K4 _ _ _ _ _ E).
  - intros h' a' Hin. apply in_app_or in Hin as [Hin|[Hin|[]]]; [eauto|]. injection Hin as <- _. congruence.
Qed.
Lemma kinv_step w ev : jinv w -> kinv w -> kinv (jstep w ev).
Proof.
  intros HJ HK. pose proof HK as [K1 K2 K3 K4 K5].
  assert (Hon : forall h f, (forall x, lookup h (j_hosts w) = Some x -> kinv (f x)) -> kinv (on_host h w f)).
  { intros h f Hf. unfold on_host. destruct (lookup h (j_hosts w)) as [x|] eqn:E; auto. }
  assert (Hnil : from_hosts w []) by (intros k e []).
  destruct ev as [h addr|h stored ok|h k|h pick|h|h r|h ok|h leader now|k|h]; cbn [jstep]; try (apply Hon; intros x Hl).
  - destruct (lookup h (j_hosts w)) as [x|] eqn:El; [assumption|].
    assert (Hk : keeps w (JWorld (j_peers w) (j_lock w) (put h (JHost addr JInsert) (j_hosts w)) (j_acts w))).
    { intros k a (y & A & B). exists y. cbn. rewrite lookup_put_other by congruence. auto. }
    constructor; cbn [j_peers j_acts].
    + eapply from_keeps; eauto.
    + intros h' x' found Hl' Hf. eapply from_keeps; [exact Hk|]. cbn in Hl'. destruct (list_eq_dec N.eq_dec h' h) as [->|Hne].
      * rewrite lookup_put_same in Hl'. injection Hl' as <-. discriminate Hf.
      * rewrite lookup_put_other in Hl' by assumption. eauto.
    + intros h' x' q Hl' Hf. eapply other_keeps; [exact Hk|]. cbn in Hl'. destruct (list_eq_dec N.eq_dec h' h) as [->|Hne].
      * rewrite lookup_put_same in Hl'. injection Hl' as <-. discriminate Hf.
      * rewrite lookup_put_other in Hl' by assumption. eauto.
    + intros a b h' q ok E. destruct (K4 _ _ _ _ _ E) as [X Y]. split; [eapply other_keeps; eauto|exact Y].
    + intros h' a Hin. cbn. destruct (list_eq_dec N.eq_dec h' h) as [->|Hne]; [rewrite lookup_put_same; discriminate|].
      rewrite lookup_put_other by assumption. eauto.
  - destruct (h_phase x) eqn:Ep; auto. cbv zeta.
    assert (Hw : kinv (if stored then write_peer h (PEntry (h_addr x) false false 0%Z) w else w)).
    { destruct stored; [|assumption]. apply kinv_write; [assumption|]. exists x. auto. }
    destruct (ok && stored)%bool; [|assumption]. apply kinv_phase; [assumption|destruct stored; assumption|]. intros k e [].
  - destruct (h_phase x) as [|found| | | | | |] eqn:Ep; auto. destruct (lookup k (j_peers w)) as [e|] eqn:Ek; [|assumption].
    apply kinv_phase; auto. intros k' e' Hin. apply in_put in Hin as [[-> ->]|Hin]; [apply K1, lookup_in; assumption|]. eapply K2; eauto.
  - destruct (h_phase x) as [|found| | | | | |] eqn:Ep; auto. destruct (candidates h (h_addr x) found) as [|c cs] eqn:Ec; [now apply kinv_phase|].
    destruct (first_choice pick (c :: cs)) eqn:Ef; [|assumption]. apply kinv_phase; auto.
    unfold first_choice in Ef. destruct (lookup pick (c :: cs)) as [e|] eqn:El; [|discriminate]. apply lookup_in in El. rewrite <- Ec in El.
    unfold candidates in El. apply filter_In in El as [X Y]. apply andb_prop in Y as [Y _]. apply Bool.negb_true_iff, Bool.orb_false_iff in Y as [Y1 Y2]. cbn [fst snd] in *.
    destruct (K2 _ _ _ Hl Ep _ _ X) as (xp & A & B). split; [intros ->; rewrite beq_refl in Y1; discriminate|].
    exists x, xp. repeat split; auto. intros C. rewrite B in C. rewrite C, beq_refl in Y2. discriminate.
  - destruct (h_phase x) as [|found| | | | | |] eqn:Ep; auto. apply kinv_phase; auto.
  - destruct (h_phase x) eqn:Ep; auto.
    assert (Hlk : kinv (JWorld (j_peers w) (Some h) (j_hosts w) (j_acts w))) by (constructor; cbn; auto).
    destruct r; [| |apply kinv_phase; auto]; (destruct (j_lock w) as [c|] eqn:El; [apply kinv_phase; auto|]); apply kinv_phase; auto.
  - destruct (h_phase x) as [|found| | |p| | |] eqn:Ep; auto.
    + eapply kinv_act; [apply kinv_phase; auto; destruct ok; exact I|cbn; apply lookup_put_same|exact I].
    + eapply kinv_act; [apply kinv_phase; auto; destruct ok; exact I|cbn; apply lookup_put_same|]. split.
      * eapply other_keeps; [apply keeps_phase; eassumption|]. eauto.
      * pose proof (ji_phase _ HJ _ _ Hl) as X. rewrite Ep in X. exact X.
    + apply kinv_phase; auto. destruct ok; exact I.
  - destruct (h_phase x) eqn:Ep; auto. apply kinv_write; [assumption|]. exists x. auto.
  - constructor; cbn; auto. intros k' e Hin. apply in_del in Hin. exact (K1 _ _ Hin).
  - apply kinv_phase; auto.
Qed.
Lemma jreached_kinv w : jreached w -> kinv w.
Proof.
  intros [evs ->]. assert (X : forall evs w, jinv w -> kinv w -> kinv (jrun w evs)).
  { clear. induction evs as [|ev evs IH]; intros w A B; [exact B|]. cbn [jrun fold_left]. apply IH; [now apply jinv_step|now apply kinv_step]. }
  apply X; [apply jinv_start|]. constructor; cbn; try (intros; discriminate).
  - intros k e [].
  - intros a b h p ok E. destruct a; discriminate E.
  - intros h a [].
Qed.

(* --- a host gets in ------------------------------------------------------------------ *)
Lemma best_exists (l : list (bytes * pentry)) : l <> [] -> exists kv, In kv l /\ forall kv', In kv' l -> better (snd kv') (snd kv) = false.
Proof.
  assert (Hr : forall e, better e e = false) by (intros e; unfold better; rewrite Bool.eqb_reflx; cbn; lia).
  induction l as [|x l IH]; [congruence|]. intros _. destruct l as [|y l]; [exists x; split; [now left|]; intros kv' [<-|[]]; apply Hr|].
  destruct IH as (kv & A & B); [discriminate|]. destruct (better (snd x) (snd kv)) eqn:E.
  - exists x. split; [now left|]. intros kv' [<-|Hin]; [apply Hr|]. specialize (B _ Hin). revert E B. unfold better. clear.
    destruct (pe_leader (snd x)), (pe_leader (snd kv)), (pe_leader (snd kv')); cbn; intros; try discriminate; try reflexivity; lia.
  - exists kv. split; [now right|]. intros kv' [<-|Hin]; [exact E|auto].
Qed.
Lemma peers_sorted_step w ev : sorted (j_peers w) -> sorted (j_peers (jstep w ev)).
Proof.
  intros H. destruct ev as [h addr|h stored ok|h k|h pick|h|h r|h ok|h leader now|k|h]; cbn [jstep]; unfold on_host;
    try (destruct (lookup h (j_hosts w)) as [x|]; [|assumption]); try assumption; try (destruct (h_phase x); try assumption); cbn; auto using sorted_put, sorted_del.
  - destruct ok, stored; cbn; auto using sorted_put.
  - destruct (lookup k (j_peers w)); assumption.
  - destruct (candidates _ _ _); [assumption|]. destruct (first_choice _ _); assumption.
  - destruct r, (j_lock w); assumption.
Qed.
Lemma jreached_sorted w : jreached w -> sorted (j_peers w).
Proof.
  intros [evs ->]. assert (X : forall evs w, sorted (j_peers w) -> sorted (j_peers (jrun w evs))).
  { clear. induction evs as [|ev evs IH]; intros w A; [exact A|]. cbn [jrun fold_left]. apply IH. now apply peers_sorted_step. }
  apply X. exact I.
Qed.
Fixpoint taken (m : list (bytes * pentry)) (ks : list bytes) (f : list (bytes * pentry)) : list (bytes * pentry) :=
  match ks with [] => f | k :: ks => taken m ks (match lookup k m with Some e => put k e f | None => f end) end.
Lemma taken_sorted m ks : forall f, sorted f -> sorted (taken m ks f).
Proof. induction ks as [|k ks IH]; intros f H; [exact H|]. cbn. apply IH. destruct (lookup k m); auto using sorted_put. Qed.
Lemma taken_lookup m ks : forall f k, (lookup k f = None \/ lookup k f = lookup k m) ->
  lookup k (taken m ks f) = if existsb (beq k) ks then lookup k m else lookup k f.
Proof.
  induction ks as [|k0 ks IH]; intros f k H; [reflexivity|]. cbn [existsb taken].
  destruct (lookup k0 m) as [e|] eqn:E.
  - destruct (beq_spec k k0) as [->|Hne]; cbn [orb].
    + rewrite IH; rewrite lookup_put_same; [destruct (existsb _ _); auto|right; auto].
    + rewrite IH; rewrite lookup_put_other by assumption; [reflexivity|exact H].
  - rewrite IH by exact H. destruct (beq_spec k k0) as [->|Hne]; cbn [orb]; [|reflexivity].
    destruct (existsb _ _); [reflexivity|]. destruct H as [-> | ->]; auto.
Qed.
Lemma taken_all m : sorted m -> taken m (map fst m) [] = m.
Proof.
  intros Hm. apply smap_ext; [apply taken_sorted; exact I|exact Hm|]. intros k. rewrite taken_lookup by (now left).
  destruct (existsb (beq k) (map fst m)) eqn:E; [reflexivity|]. cbn. destruct (lookup k m) as [e|] eqn:El; [|reflexivity].
  apply lookup_in in El. assert (X : existsb (beq k) (map fst m) = true) by (apply existsb_exists; exists k; split; [exact (in_map fst _ _ El)|apply beq_refl]). congruence.
Qed.
Lemma run_finds h addr ks : forall w f, lookup h (j_hosts w) = Some (JHost addr (JList f)) ->
  let w' := jrun w (map (JFind h) ks) in
  j_peers w' = j_peers w /\ j_lock w' = j_lock w /\ j_acts w' = j_acts w /\
  lookup h (j_hosts w') = Some (JHost addr (JList (taken (j_peers w) ks f))).
Proof.
  induction ks as [|k ks IH]; intros w f Hl; cbv zeta; [auto|]. cbn [map jrun fold_left]. fold (jrun (jstep w (JFind h k)) (map (JFind h) ks)).
  cbn [jstep]. unfold on_host. rewrite Hl. cbn [h_phase].  cbn [taken].
  destruct (lookup k (j_peers w)) as [e|] eqn:E.
  - destruct (IH (set_phase h (JHost addr (JList f)) (JList (put k e f)) w) (put k e f)) as (A & B & C & D); [cbn; now rewrite lookup_put_same|]. cbv zeta in *. auto.
  - apply (IH w f Hl).
Qed.
Lemma filter_keeps_sorted {V} (p : bytes * V -> bool) (m : list (bytes * V)) : sorted m -> sorted (filter p m).
Proof.
  induction m as [|[k v] m IH]; cbn [filter sorted]; [auto|]. intros [H1 H2].
  destruct (p (k, v)); [|auto]. cbn [sorted]; split; [|auto].
  apply all_above_iff. intros k' v' Hin. apply filter_In in Hin as [Hin _]. revert H1; rewrite all_above_iff; eauto.
Qed.
Lemma run_app w a b : jrun w (a ++ b) = jrun (jrun w a) b.
Proof. apply fold_left_app. Qed.
Lemma gets_in w h addr : jreached w -> lookup h (j_hosts w) = None ->
  j_lock w = None \/ (exists m e, lookup m (j_peers w) = Some e /\ pe_member e = true /\ pe_addr e <> addr) ->
  let w1 := jrun w [JStart h addr; JInserted h true true] in
  let w2 := jrun w1 (list_all h w1) in
  (exists pick, is_member (jrun w2 [JListed h pick; JSetNX h NxAnswered; JDone h true; JDone h true]) h).
Proof.
  intros Hr Hf Hc w1 w2. pose proof (jreached_kinv _ Hr) as [K1 _ _ _ _]. pose proof (jreached_sorted _ Hr) as Hs.
  assert (E1 : w1 = JWorld (put h (PEntry addr false false 0%Z) (j_peers w)) (j_lock w) (put h (JHost addr (JList [])) (put h (JHost addr JInsert) (j_hosts w))) (j_acts w)).
  { unfold w1. cbn [jrun fold_left jstep]. rewrite Hf. unfold on_host. cbn [j_hosts]. rewrite lookup_put_same. reflexivity. }
  assert (Hl1 : lookup h (j_hosts w1) = Some (JHost addr (JList []))) by (rewrite E1; cbn; apply lookup_put_same).
  destruct (run_finds h addr (map fst (j_peers w1)) w1 [] Hl1) as (A & B & C & D). change (map (JFind h) (map fst (j_peers w1))) with (list_all h w1) in *. fold w2 in A, B, C, D. rewrite taken_all in D by (rewrite E1; cbn; now apply sorted_put).
  assert (Hp1 : j_peers w1 = put h (PEntry addr false false 0%Z) (j_peers w)) by (now rewrite E1).
  destruct (candidates h addr (j_peers w1)) as [|c cs] eqn:Ec.
  - exists []. destruct Hc as [Hlk|(m & e & M1 & M2 & M3)].
    + exists (JHost addr JMember). split; [|reflexivity]. cbn [jrun fold_left].
      assert (S1 : jstep w2 (JListed h []) = set_phase h (JHost addr (JList (j_peers w1))) JLock w2) by (cbn [jstep]; unfold on_host; rewrite D; cbn [h_phase h_addr]; now rewrite Ec).
      rewrite S1. assert (Hl2 : j_lock w2 = None) by (rewrite B, E1; exact Hlk). clear S1 D.
      do 3 (cbn [jstep]; unfold on_host; cbn [set_phase j_hosts act_of j_peers j_acts h_addr j_lock]; rewrite ?lookup_put_same; cbn [h_phase h_addr]; rewrite ?Hl2).
      cbn. now rewrite lookup_put_same.
    + exfalso. assert (Hin : In (m, e) (candidates h addr (j_peers w1))); [|rewrite Ec in Hin; exact Hin]. apply filter_In. cbn [fst snd].
      assert (Hm : m <> h). { intros ->. apply lookup_in in M1. destruct (K1 _ _ M1) as (x & X & _). congruence. }
      split; [apply lookup_in; rewrite Hp1, lookup_put_other by assumption; assumption|]. rewrite M2, Bool.andb_true_r. apply Bool.negb_true_iff, Bool.orb_false_iff. split; [destruct (beq_spec m h)|destruct (beq_spec (pe_addr e) addr)]; congruence.
  - destruct (best_exists (c :: cs)) as ([k e] & X & Y); [discriminate|]. exists k.
    assert (Hfc : first_choice k (c :: cs) = true).
    { unfold first_choice. assert (Z : lookup k (c :: cs) = Some e).
      { apply in_lookup; [|exact X]. rewrite <- Ec. apply filter_keeps_sorted. rewrite Hp1. now apply sorted_put. }
      rewrite Z. apply forallb_forall. intros kv Hk. cbn [snd] in Y. now rewrite (Y kv Hk). }
    exists (JHost addr JMember). split; [|reflexivity]. cbn [jrun fold_left].
    assert (S1 : jstep w2 (JListed h k) = set_phase h (JHost addr (JList (j_peers w1))) (JJoin k) w2).
    { cbn [jstep]. unfold on_host. rewrite D. cbn [h_phase h_addr]. rewrite Ec. now rewrite Hfc. }
    rewrite S1. clear S1 D.
    do 3 (cbn [jstep]; unfold on_host; cbn [set_phase j_hosts act_of j_peers j_acts h_addr j_lock]; rewrite ?lookup_put_same; cbn [h_phase h_addr]).
    cbn. now rewrite lookup_put_same.
Qed.
