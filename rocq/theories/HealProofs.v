From Verif Require Export HealSpec.
From Verif Require Import SMap MembershipProofs RaftRun RaftNode.
From Coq Require Import Permutation.

(* ---- reading back a group ---- *)
Lemma from_proto_aux_ok g : forall out, wf_members out ->
  (forall r, In r g -> blen (rp_id r) = 32) -> NoDup (map rp_id g) -> (forall r, In r g -> ~ In (rp_id r) (m_all out)) ->
  exists to, from_proto_aux g out = (to, M_OK) /\
    (forall q, In q (m_all to) <-> In q (map rp_id g) \/ In q (m_all out)) /\
    (forall q, In q (m_voting to) <-> In (Replica q true) g \/ In q (m_voting out)).
Proof.
  induction g as [|r g IH]; intros out W H1 H2 H3; cbn [from_proto_aux map].
  - exists out. cbn. intuition.
  - rewrite (H1 r (or_introl eq_refl)). cbn [N.eqb Pos.eqb negb].
    destruct (pmem (rp_id r) (m_all out)) eqn:E; [apply pmem_In in E; now destruct (H3 r (or_introl eq_refl))|].
    inversion H2; subst.
    set (out' := Members _ _).
    assert (W' : wf_members out').
    { pose proof (from_proto_aux_wf [r] out W) as X. cbn in X. rewrite (H1 r (or_introl eq_refl)), E in X. exact X. }
    destruct (IH out' W' (fun q Hq => H1 q (or_intror Hq)) H5) as (to & E1 & E2 & E3).
    { intros q Hq. cbn. rewrite pins_In. intros [Hin|Hin]; [|exact (H3 q (or_intror Hq) Hin)].
      apply H4. rewrite <- Hin. now apply in_map. }
    exists to. split; [exact E1|]. split; intros q.
    + rewrite E2. cbn. rewrite pins_In. intuition.
    + rewrite E3. cbn. destruct r as [rid rv]; cbn. destruct rv; [rewrite pins_In|].
      * split; [intros [X|[->|X]]; auto|intros [[[= <-]|X]|X]; auto].
      * split; [intros [X|X]; auto|intros [[X|X]|X]; [discriminate|auto|auto]].
Qed.
Lemma from_proto_ok g : (forall r, In r g -> blen (rp_id r) = 32) -> NoDup (map rp_id g) ->
  exists to, from_proto g = (to, M_OK) /\ wf_members to /\
    (forall q, In q (m_all to) <-> In q (map rp_id g)) /\ (forall q, In q (m_voting to) <-> In (Replica q true) g).
Proof.
  intros H1 H2. assert (W : wf_members (Members [] [])) by (split; [|split]; cbn; auto; intros ? []).
  destruct (from_proto_aux_ok g (Members [] []) W H1 H2 ltac:(cbn; auto)) as (to & E & A & V).
  exists to. split; [exact E|]. split; [exact (from_proto_wf _ _ _ E)|].
  cbn in A, V. split; intros q; [rewrite A|rewrite V]; intuition.
Qed.

Lemma as_proto_ids m : map rp_id (as_proto m) = m_all m.
Proof. unfold as_proto. rewrite map_map. cbn. apply map_id. Qed.
Lemma as_proto_in m p v : In (Replica p v) (as_proto m) <-> In p (m_all m) /\ v = pmem p (m_voting m).
Proof.
  unfold as_proto. rewrite in_map_iff. split; [intros (x & E & H); injection E as <- <-; auto|].
  intros [H ->]. exists p. auto.
Qed.

Lemma set_voting_spec p v g g' : NoDup (map rp_id g) -> set_voting p v g = Some g' ->
  map rp_id g' = map rp_id g /\ forall q w, In (Replica q w) g' <-> (q = p /\ w = v) \/ (q <> p /\ In (Replica q w) g).
Proof.
  revert g'; induction g as [|r g IH]; cbn [set_voting]; intros g' N E; [discriminate|].
  cbn in N. inversion N as [|? ? N1 N2]; subst. destruct (beq (rp_id r) p) eqn:B.
  - apply beq_eq in B; subst p. injection E as <-. split; [reflexivity|]. intros q w. cbn. split.
    + intros [[= <- <-]|H]; [auto|]. right. split; [|auto]. intros ->. apply N1. exact (in_map rp_id _ _ H).
    + intros [[-> ->]|[H1 [H2|H2]]]; auto. subst r. now destruct H1.
  - destruct (set_voting p v g) as [g1|] eqn:E1; [|discriminate]. injection E as <-.
    destruct (IH _ N2 eq_refl) as [I1 I2]. split; [cbn; now rewrite I1|]. intros q w. cbn. rewrite I2.
    assert (H : rp_id r <> p) by (intros X; rewrite X, beq_refl in B; discriminate).
    split; [intros [->|[H1|H1]]; [right; split; [exact H|now left]|auto|right; intuition]|intros [H1|[H1 [H2|H2]]]; auto].
Qed.
Lemma set_voting_some p v g : In p (map rp_id g) -> set_voting p v g <> None.
Proof.
  induction g as [|r g IH]; cbn [set_voting map In]; [intros []|]. intros [->|H]; [now rewrite beq_refl|].
  destruct (beq (rp_id r) p); [discriminate|]. specialize (IH H). destruct (set_voting p v g); [discriminate|congruence].
Qed.
Lemma drop_replica_spec p g g' : NoDup (map rp_id g) -> drop_replica p g = Some g' ->
  NoDup (map rp_id g') /\ forall q w, In (Replica q w) g' <-> q <> p /\ In (Replica q w) g.
Proof.
  revert g'; induction g as [|r g IH]; cbn [drop_replica]; intros g' N E; [discriminate|].
  cbn in N. inversion N as [|? ? N1 N2]; subst. destruct (beq (rp_id r) p) eqn:B.
  - apply beq_eq in B; subst p. injection E as <-. split; [exact N2|]. intros q w. cbn. split.
    + intros H. split; [|auto]. intros ->. apply N1. exact (in_map rp_id _ _ H).
    + intros [H1 [H2|H2]]; auto. subst r. now destruct H1.
  - destruct (drop_replica p g) as [g1|] eqn:E1; [|discriminate]. injection E as <-.
    destruct (IH _ N2 eq_refl) as [I1 I2]. 
    assert (H : rp_id r <> p) by (intros X; rewrite X, beq_refl in B; discriminate).
    split.
    + cbn. constructor; [|exact I1]. intros Hin. apply N1. apply in_map_iff in Hin as ([rid rv] & Er & Hin). cbn in Er.
      apply I2 in Hin as [_ Hin]. rewrite <- Er. change rid with (rp_id (Replica rid rv)). now apply in_map.
    + intros q w. cbn. rewrite I2. split; [intros [->|H1]; [split; [exact H|now left]|intuition]|intros [H1 [H2|H2]]; auto].
Qed.
Lemma drop_replica_some p g : In p (map rp_id g) -> drop_replica p g <> None.
Proof.
  induction g as [|r g IH]; cbn [drop_replica map In]; [intros []|]. intros [->|H]; [now rewrite beq_refl|].
  destruct (beq (rp_id r) p); [discriminate|]. specialize (IH H). destruct (drop_replica p g); [discriminate|congruence].
Qed.
Lemma first_some_in {X Y} (f : X -> option Y) l y : first_some f l = Some y -> exists x, In x l /\ f x = Some y.
Proof.
  induction l as [|x l IH]; cbn; [discriminate|]. destruct (f x) eqn:E; [intros [= <-]; eauto|].
  intros H. destruct (IH H) as (z & H1 & H2). eauto.
Qed.
Lemma first_some_found {X Y} (f : X -> option Y) l x : In x l -> f x <> None -> first_some f l <> None.
Proof.
  induction l as [|z l IH]; cbn; [intros []|]. intros [->|H] N; [destruct (f x); congruence|].
  destruct (f z); [discriminate|auto].
Qed.

(* ---- who is chosen ---- *)
Lemma freshest_in n vs ps : forall best min p m, freshest n vs ps best min = (Some p, m) ->
  (best = Some p /\ m = min) \/ (In p ps /\ pmem p vs = false /\ last_seen n p = m /\ (m < min)%Z).
Proof.
  induction ps as [|x ps IH]; intros best min p m; cbn [freshest]; [intros [= -> ->]; auto|].
  destruct ((last_seen n x <? min)%Z && negb (pmem x vs))%bool eqn:E; intros H.
  - apply andb_true_iff in E as [E1 E2]. apply negb_true_iff in E2. apply Z.ltb_lt in E1.
    destruct (IH _ _ _ _ H) as [[[= ->] ->]|(H1 & H2 & H3 & H4)]; right; [|split; [now right|]; intuition].
    split; [now left|]. auto.
  - destruct (IH _ _ _ _ H) as [[-> ->]|(H1 & H2 & H3 & H4)]; [auto|]. right. split; [now right|]. auto.
Qed.
Lemma freshest_le n vs ps : forall best min b m, freshest n vs ps best min = (b, m) ->
  (m <= min)%Z /\ (forall p, In p ps -> pmem p vs = false -> (m <= last_seen n p)%Z) /\ (b = None -> best = None /\ m = min).
Proof.
  induction ps as [|x ps IH]; intros best min b m; cbn [freshest]; [intros [= -> ->]; split; [lia|]; split; [intros ? []|auto]|].
  destruct ((last_seen n x <? min)%Z && negb (pmem x vs))%bool eqn:E; intros H; destruct (IH _ _ _ _ H) as (H1 & H2 & H3).
  - apply andb_true_iff in E as [E1 E2]. apply Z.ltb_lt in E1. split; [lia|]. split; [|intros Hb; destruct (H3 Hb); discriminate].
    intros p [->|Hp] Hv; [exact H1|auto].
  - split; [exact H1|]. split; [|exact H3]. intros p [->|Hp] Hv; [|auto]. rewrite Hv in E. cbn in E. rewrite andb_true_r in E. apply Z.ltb_ge in E. lia.
Qed.

Definition not_self (n : node) : Prop := last_seen n (n_me n) = invalid_ticks.
Lemma reached_sound sz hmac n : reached sz hmac n -> wf_members (mship n) /\ not_self n.
Proof.
  intros R. destruct (reached_ok sz hmac n R) as [A [HR _]]. split.
  - destruct (ri_ms _ _ _ _ _ _ _ _ _ _ _ HR) as [W U]. unfold mship.
    destruct (n_unc n) as [|u us] eqn:E; [exact W|].
    assert (I : In (last (u :: us) u) (u :: us)) by (destruct (@exists_last _ (u :: us) ltac:(discriminate)) as (l & a & ->); rewrite last_last; apply in_or_app; right; now left).
    replace (last (map snd (u :: us)) (n_mem n)) with (snd (last (u :: us) u)).
    { destruct (last (u :: us) u) as [i x] eqn:El. exact (U i x I). }
    destruct (@exists_last _ (u :: us) ltac:(discriminate)) as (l & a & ->). rewrite map_app. cbn [map]. now rewrite !last_last.
  - pose proof (ri_ro _ _ _ _ _ _ _ _ _ _ _ HR) as RO. unfold not_self, last_seen. destruct (n_role n) as [| |fs hb rel]; try reflexivity.
    destruct RO as (S & _ & _ & F). destruct (lookup (n_me n) fs) as [f|] eqn:L; [|reflexivity].
    destruct (F (n_me n) f) as (_ & H & _); [|congruence]. now apply lookup_in.
Qed.

(* ---- the number of voters ---- *)
Lemma same_size a b : ssorted a -> ssorted b -> (forall q, In q a <-> In q b) -> psize a = psize b.
Proof.
  intros Ha Hb H. unfold psize. f_equal. apply Permutation_length. apply NoDup_Permutation; auto using ssorted_NoDup.
Qed.
Lemma one_more a b p : ssorted a -> ssorted b -> ~ In p a -> (forall q, In q b <-> q = p \/ In q a) -> psize b = psize a + 1.
Proof.
  intros Ha Hb Hp H. unfold psize. assert (P : Permutation b (p :: a)).
  { apply NoDup_Permutation; [now apply ssorted_NoDup|constructor; [exact Hp|now apply ssorted_NoDup]|].
    intros q. rewrite H. cbn. intuition. }
  rewrite (Permutation_length P). cbn [length]. lia.
Qed.

Lemma next_group_heals c n g : wf_members (mship n) -> ids_ok (mship n) -> not_self n ->
  next_group c n = Some g ->
  exists to, from_proto g = (to, M_OK) /\ wf_members to /\ heals c n (mship n) to /\ is_leader n = true.
Proof.
  intros (Wa & Wv & Wi) I NS. set (m := mship n) in *.
  assert (NDa : NoDup (map rp_id (as_proto m))) by (rewrite as_proto_ids; now apply ssorted_NoDup).
  assert (Ia : forall r, In r (as_proto m) -> blen (rp_id r) = 32).
  { intros r H. apply I. rewrite <- as_proto_ids. now apply in_map. }
  assert (Vin : forall q, In (Replica q true) (as_proto m) <-> In q (m_voting m)).
  { intros q. rewrite as_proto_in. split; [intros [_ H]; now apply pmem_In|]. intros H. split; [auto|]. symmetry. now apply pmem_In. }
  assert (LEAD : forall p, last_seen n p <> invalid_ticks -> is_leader n = true).
  { intros p. unfold last_seen, is_leader. now destruct (n_role n). }
  assert (Rv : forall (t : members) q, In q (m_all t) /\ In q (m_voting t) -> role_in t q = Voter) by (intros t q [_ H]; now apply (proj1 (role_is t q))).
  unfold next_group. destruct (knows_leader n) eqn:K; cbn [negb]; [|discriminate].
  destruct (promote_one c n) as [g1|] eqn:E1.
  { intros [= <-]. unfold promote_one in E1. fold m in E1.
    destruct ((psize (m_voting m) <? h_max c) && (psize (m_voting m) <? psize (m_all m)))%bool eqn:Eb; [|discriminate].
    apply andb_true_iff in Eb as [Eb _]. apply N.ltb_lt in Eb.
    destruct (freshest n (m_voting m) (m_all m) None invalid_ticks) as [[p|] mn] eqn:Ef; [|discriminate].
    destruct (mn <? c_eticks (n_cfg n))%Z eqn:Et; [|discriminate]. apply Z.ltb_lt in Et.
    destruct (freshest_in _ _ _ _ _ _ _ Ef) as [[? _]|(Hp & Hv & Hs & Hm)]; [discriminate|].
    apply pmem_nIn in Hv.
    destruct (set_voting_spec _ _ _ _ NDa E1) as [Ei Ev].
    assert (I1 : forall r, In r g1 -> blen (rp_id r) = 32).
    { intros r H. apply (in_map rp_id) in H. rewrite Ei, as_proto_ids in H. now apply I. }
    destruct (from_proto_ok g1 I1 ltac:(now rewrite Ei)) as (to & F & Wt & Ta & Tv).
    assert (Tall : forall q, In q (m_all to) <-> In q (m_all m)) by (intros q; rewrite Ta, Ei, as_proto_ids; reflexivity).
    assert (Tvot : forall q, In q (m_voting to) <-> q = p \/ In q (m_voting m)).
    { intros q. rewrite Tv, Ev, Vin. destruct (list_eq_dec N.eq_dec q p); intuition. }
    exists to. split; [exact F|]. split; [exact Wt|]. split; [|apply (LEAD p); lia].
    assert (Sz : voters to = voters m + 1) by (apply (one_more _ _ p); auto; apply Wt).
    apply (h_promotes _ _ _ _ p); [|split; [|split]| |exact Sz|unfold voters in *; lia].
    - intros ->. unfold not_self in NS. lia.
    - apply (proj2 (role_is m p)). auto.
    - apply (proj1 (role_is to p)), Tvot. now left.
    - intros q Hq. apply role_same; [apply Tall|rewrite Tvot; intuition].
    - split; lia. }
  destruct (demote_one c n) as [g1|] eqn:E2.
  { intros [= <-]. unfold demote_one in E2. fold m in E2.
    destruct (h_min c <? psize (m_voting m)) eqn:Eb; [|discriminate]. apply N.ltb_lt in Eb.
    destruct (first_some_in _ _ _ E2) as (p & Hp & E3). destruct (gone n (h_voting_timeout c) p) eqn:Eg; [|discriminate].
    unfold gone in Eg. apply andb_true_iff in Eg as [G1 G2]. apply negb_true_iff, Z.eqb_neq in G1. apply Z.ltb_lt in G2.
    destruct (set_voting_spec _ _ _ _ NDa E3) as [Ei Ev].
    assert (I1 : forall r, In r g1 -> blen (rp_id r) = 32).
    { intros r H. apply (in_map rp_id) in H. rewrite Ei, as_proto_ids in H. now apply I. }
    destruct (from_proto_ok g1 I1 ltac:(now rewrite Ei)) as (to & F & Wt & Ta & Tv).
    assert (Tall : forall q, In q (m_all to) <-> In q (m_all m)) by (intros q; rewrite Ta, Ei, as_proto_ids; reflexivity).
    assert (Tvot : forall q, In q (m_voting to) <-> q <> p /\ In q (m_voting m)).
    { intros q. rewrite Tv, Ev, Vin. split; [intros [[_ ?]|?]; [discriminate|auto]|auto]. }
    exists to. split; [exact F|]. split; [exact Wt|]. split; [|apply (LEAD p); auto].
    assert (Sz : voters m = voters to + 1).
    { apply (one_more _ _ p); auto; [apply Wt|rewrite Tvot; intuition|]. intros q. rewrite Tvot.
      destruct (list_eq_dec N.eq_dec q p); [subst|]; intuition. }
    apply (h_demotes _ _ _ _ p); [|split; [|split]| |lia|unfold voters in *; lia].
    - intros ->. unfold not_self in NS. congruence.
    - apply (proj1 (role_is m p)). auto.
    - apply (proj2 (role_is to p)). rewrite Tall, Tvot. intuition.
    - intros q Hq. apply role_same; [apply Tall|rewrite Tvot; intuition].
    - split; auto. }
  intros E3. unfold remove_one in E3. fold m in E3.
  destruct (psize (m_voting m) <? psize (m_all m)); [|discriminate].
  destruct (first_some_in _ _ _ E3) as (p & Hp & E4). destruct (pmem p (m_voting m)) eqn:Hv; [discriminate|]. apply pmem_nIn in Hv.
  destruct (gone n (h_membership_timeout c) p) eqn:Eg; [|discriminate].
  unfold gone in Eg. apply andb_true_iff in Eg as [G1 G2]. apply negb_true_iff, Z.eqb_neq in G1. apply Z.ltb_lt in G2.
  destruct (drop_replica_spec _ _ _ NDa E4) as [Ei Ev].
  assert (I1 : forall r, In r g -> blen (rp_id r) = 32).
  { intros [rid rv] H. apply Ev in H as [_ H]. now apply Ia. }
  destruct (from_proto_ok g I1 Ei) as (to & F & Wt & Ta & Tv).
  assert (Tall : forall q, In q (m_all to) <-> q <> p /\ In q (m_all m)).
  { intros q. rewrite Ta, in_map_iff. split.
    - intros ([rid rv] & <- & H). apply Ev in H as [H1 H2]. split; [exact H1|]. rewrite <- as_proto_ids. now apply in_map.
    - intros [H1 H2]. exists (Replica q (pmem q (m_voting m))). split; [reflexivity|]. apply Ev. split; [exact H1|]. apply as_proto_in. auto. }
  assert (Tvot : forall q, In q (m_voting to) <-> In q (m_voting m)).
  { intros q. rewrite Tv, Ev, Vin. split; [tauto|]. intros H. split; [|exact H]. intros ->. auto. }
  exists to. split; [exact F|]. split; [exact Wt|]. split; [|apply (LEAD p); auto].
  apply (h_removes _ _ _ _ p); [|split; [|split]| |apply same_size; auto; apply Wt].
  - intros ->. unfold not_self in NS. congruence.
  - apply (proj2 (role_is m p)). auto.
  - apply (proj2 (proj2 (role_is to p))). rewrite Tall, Tvot. intuition.
  - intros q Hq. apply role_same; [rewrite Tall; intuition|apply Tvot].
  - split; auto.
Qed.

(* ---- what has to be done is proposed ---- *)
Lemma subset_size m p : wf_members m -> In p (m_all m) -> ~ In p (m_voting m) -> psize (m_voting m) < psize (m_all m).
Proof.
  intros (Wa & Wv & Wi) H1 H2. unfold psize.
  assert (L : (length (p :: m_voting m) <= length (m_all m))%nat).
  { apply NoDup_incl_length; [constructor; [exact H2|now apply ssorted_NoDup]|]. intros q [<-|H]; auto. }
  cbn [length] in L. lia.
Qed.
Lemma leads n p : last_seen n p <> invalid_ticks -> knows_leader n = true.
Proof. unfold last_seen, knows_leader. destruct (n_role n); easy. Qed.
Lemma promote_some c n p : wf_members (mship n) -> role_in (mship n) p = Silent -> heard_within n (c_eticks (n_cfg n)) p ->
  voters (mship n) < h_max c -> promote_one c n <> None.
Proof.
  intros W R [H1 H2] V. apply (proj2 (role_is _ _)) in R as [Ra Rv]. unfold promote_one. set (m := mship n) in *.
  unfold voters in V. apply N.ltb_lt in V. rewrite V. pose proof (subset_size _ _ W Ra Rv) as S. apply N.ltb_lt in S. rewrite S. cbn [andb].
  destruct (freshest n (m_voting m) (m_all m) None invalid_ticks) as [b mn] eqn:Ef.
  destruct (freshest_le _ _ _ _ _ _ _ Ef) as (F1 & F2 & F3). apply pmem_nIn in Rv. specialize (F2 p Ra Rv).
  destruct b as [q|]; [|destruct (F3 eq_refl); lia].
  assert (L : (mn <? c_eticks (n_cfg n))%Z = true) by (apply Z.ltb_lt; lia). rewrite L.
  apply set_voting_some. rewrite as_proto_ids. destruct (freshest_in _ _ _ _ _ _ _ Ef) as [[? _]|(? & _)]; [discriminate|auto].
Qed.
Lemma gone_silent n t p : silent_for n t p -> gone n t p = true.
Proof. intros [H1 H2]. unfold gone. apply Z.eqb_neq in H2. apply Z.ltb_lt in H1. now rewrite H1, H2. Qed.
Lemma demote_some c n p : wf_members (mship n) -> role_in (mship n) p = Voter -> silent_for n (h_voting_timeout c) p ->
  h_min c < voters (mship n) -> demote_one c n <> None.
Proof.
  intros W R S V. apply (proj1 (role_is _ _)) in R. unfold demote_one. apply N.ltb_lt in V. unfold voters in V. rewrite V.
  eapply first_some_found; [exact R|]. rewrite (gone_silent _ _ _ S). apply set_voting_some. rewrite as_proto_ids. now apply W.
Qed.
Lemma remove_some c n p : wf_members (mship n) -> role_in (mship n) p = Silent -> silent_for n (h_membership_timeout c) p -> remove_one c n <> None.
Proof.
  intros W R S. apply (proj2 (role_is _ _)) in R as [Ra Rv]. unfold remove_one.
  pose proof (subset_size _ _ W Ra Rv) as Sz. apply N.ltb_lt in Sz. rewrite Sz.
  eapply first_some_found; [exact Ra|]. apply pmem_nIn in Rv. rewrite Rv, (gone_silent _ _ _ S). apply drop_replica_some. now rewrite as_proto_ids.
Qed.

(* ---- the group accepts it ---- *)
Lemma psize_none (l : pset) : (forall q, ~ In q l) -> psize l = 0.
Proof. destruct l as [|q l]; [easy|]. intros H. destruct (H q). now left. Qed.
Lemma psize_one (l : pset) p : NoDup l -> (forall q, In q l <-> q = p) -> psize l = 1.
Proof.
  intros N H. unfold psize. assert (P : Permutation l [p]).
  { apply NoDup_Permutation; [exact N|repeat constructor; intros []|]. intros q. rewrite H. cbn. intuition. }
  now rewrite (Permutation_length P).
Qed.
Lemma rest_size a b : ssorted a -> ssorted b -> incl b a -> psize (set_diff a b) + psize b = psize a.
Proof.
  intros Ha Hb Hi. unfold psize. assert (P : Permutation a (set_diff a b ++ b)).
  { apply NoDup_Permutation; [now apply ssorted_NoDup|apply NoDup_app_mk; [now apply set_diff_NoDup|now apply ssorted_NoDup|]|].
    - intros x H1 H2. apply set_diff_In in H1; tauto.
    - intros q. rewrite in_app_iff, set_diff_In by auto. destruct (pmem q b) eqn:E; [apply pmem_In in E|apply pmem_nIn in E]; intuition. }
  rewrite (Permutation_length P), app_length. lia.
Qed.
Lemma role_members m q : wf_members m -> (In q (m_all m) <-> role_in m q <> Outside) /\ (In q (m_voting m) <-> role_in m q = Voter).
Proof.
  intros (_ & _ & Wi). destruct (role_is m q) as (R1 & R2 & R3). split; [|now symmetry].
  split; [intros H E; now apply R3 in E|]. intros H. destruct (role_in m q) eqn:E; [easy|now apply R2|]. apply Wi. now apply R1.
Qed.
Lemma heals_accepted c n from to : wf_members from -> wf_members to -> psize (m_all to) < 2 ^ 63 ->
  heals c n from to -> role_in from (n_me n) = Voter ->
  valid_progression (n_me n) from to (n_sm n) = M_OK \/
  (valid_progression (n_me n) from to (n_sm n) = M_SuperMajorityLost /\ n_sm n < voters from /\ voters to <= n_sm n).
Proof.
  intros Wf Wt Sz H L.
  assert (RM : forall q, In q (m_all from) <-> role_in from q <> Outside) by (intros; now apply role_members).
  assert (RV : forall q, In q (m_voting from) <-> role_in from q = Voter) by (intros; now apply role_members).
  assert (TM : forall q, In q (m_all to) <-> role_in to q <> Outside) by (intros; now apply role_members).
  assert (TV : forall q, In q (m_voting to) <-> role_in to q = Voter) by (intros; now apply role_members).
  destruct Wf as (Fa & Fv & Fi), Wt as (Ta & Tv & Ti).
  unfold valid_progression, set_diff_size, voters.
  destruct ((n_sm n <? psize (m_voting from)) && (psize (m_voting to) <=? n_sm n))%bool eqn:E0.
  { right. apply andb_true_iff in E0 as [E1 E2]. apply N.ltb_lt in E1. apply N.leb_le in E2. auto. }
  left. clear E0.
  assert (Me : role_in to (n_me n) = Voter).
  { destruct H as [p Hp (_ & _ & C) _ _ _|p Hp (_ & _ & C) _ _ _|p Hp (_ & _ & C) _ _]; rewrite C; auto. }
  assert (NE : (psize (m_voting to) =? 0) || (psize (m_all to) =? 0) = false).
  { apply TV in Me. assert (Ma := Ti _ Me). unfold psize.
    destruct (m_voting to); [destruct Me|]. destruct (m_all to); [destruct Ma|]. reflexivity. }
  rewrite NE.
  rewrite (proj2 (pmem_In _ _) (proj2 (TV _) Me)), (proj2 (pmem_In _ _) (Ti _ (proj2 (TV _) Me))). cbn [negb].
  assert (RS : psize (set_diff (m_all to) (m_voting to)) =? (psize (m_all to) + 2 ^ 64 - psize (m_voting to)) mod 2 ^ 64 = true).
  { pose proof (rest_size _ _ Ta Tv Ti) as R. apply N.eqb_eq.
    replace (psize (m_all to) + 2 ^ 64 - psize (m_voting to)) with (psize (set_diff (m_all to) (m_voting to)) + 1 * 2 ^ 64) by lia.
    rewrite N.mod_add, N.mod_small; [reflexivity|lia|lia]. }
  rewrite RS. cbn [negb].
  assert (D : forall a b x, ssorted a -> ssorted b -> (In x (set_diff a b) <-> In x a /\ ~ In x b)) by (intros; now apply set_diff_In).
  assert (VA : forall x, In x (set_diff (m_voting to) (m_voting from)) <-> role_in to x = Voter /\ role_in from x <> Voter) by (intros; now rewrite D, TV, RV).
  assert (VR : forall x, In x (set_diff (m_voting from) (m_voting to)) <-> role_in from x = Voter /\ role_in to x <> Voter) by (intros; now rewrite D, TV, RV).
  assert (AA : forall x, In x (set_diff (m_all to) (m_all from)) <-> role_in to x <> Outside /\ ~ role_in from x <> Outside) by (intros; now rewrite D, TM, RM).
  assert (AR : forall x, In x (set_diff (m_all from) (m_all to)) <-> role_in from x <> Outside /\ ~ role_in to x <> Outside) by (intros; now rewrite D, TM, RM).
  assert (N1 := set_diff_NoDup _ _ Tv Fv). assert (N2 := set_diff_NoDup _ _ Fv Tv).
  assert (N3 := set_diff_NoDup _ _ Ta Fa). assert (N4 := set_diff_NoDup _ _ Fa Ta).
  assert (DEC : forall x p : bytes, x = p \/ x <> p) by (intros x p; destruct (list_eq_dec N.eq_dec x p); auto).
  destruct H as [p Hp (C1 & C2 & C3) _ _ _|p Hp (C1 & C2 & C3) _ _ _|p Hp (C1 & C2 & C3) _ _].
  - assert (S1 : psize (set_diff (m_voting to) (m_voting from)) = 1).
    { apply (psize_one _ p N1). intros q. rewrite VA. destruct (DEC q p) as [->|Hq]; [rewrite C1, C2; intuition congruence|rewrite (C3 q Hq); intuition]. }
    assert (S2 : psize (set_diff (m_voting from) (m_voting to)) = 0).
    { apply psize_none. intros q. rewrite VR. destruct (DEC q p) as [->|Hq]; [rewrite C1, C2; intuition congruence|rewrite (C3 q Hq); intuition]. }
    assert (S3 : psize (set_diff (m_all to) (m_all from)) = 0).
    { apply psize_none. intros q. rewrite AA. destruct (DEC q p) as [->|Hq]; [rewrite C1, C2; intuition congruence|rewrite (C3 q Hq); intuition]. }
    assert (S4 : psize (set_diff (m_all from) (m_all to)) = 0).
    { apply psize_none. intros q. rewrite AR. destruct (DEC q p) as [->|Hq]; [rewrite C1, C2; intuition congruence|rewrite (C3 q Hq); intuition]. }
    rewrite S1, S2, S3, S4. reflexivity.
  - assert (S1 : psize (set_diff (m_voting to) (m_voting from)) = 0).
    { apply psize_none. intros q. rewrite VA. destruct (DEC q p) as [->|Hq]; [rewrite C1, C2; intuition congruence|rewrite (C3 q Hq); intuition]. }
    assert (S2 : psize (set_diff (m_voting from) (m_voting to)) = 1).
    { apply (psize_one _ p N2). intros q. rewrite VR. destruct (DEC q p) as [->|Hq]; [rewrite C1, C2; intuition congruence|rewrite (C3 q Hq); intuition]. }
    assert (S3 : psize (set_diff (m_all to) (m_all from)) = 0).
    { apply psize_none. intros q. rewrite AA. destruct (DEC q p) as [->|Hq]; [rewrite C1, C2; intuition congruence|rewrite (C3 q Hq); intuition]. }
    assert (S4 : psize (set_diff (m_all from) (m_all to)) = 0).
    { apply psize_none. intros q. rewrite AR. destruct (DEC q p) as [->|Hq]; [rewrite C1, C2; intuition congruence|rewrite (C3 q Hq); intuition]. }
    rewrite S1, S2, S3, S4. reflexivity.
  - assert (S1 : psize (set_diff (m_voting to) (m_voting from)) = 0).
    { apply psize_none. intros q. rewrite VA. destruct (DEC q p) as [->|Hq]; [rewrite C1, C2; intuition congruence|rewrite (C3 q Hq); intuition]. }
    assert (S2 : psize (set_diff (m_voting from) (m_voting to)) = 0).
    { apply psize_none. intros q. rewrite VR. destruct (DEC q p) as [->|Hq]; [rewrite C1, C2; intuition congruence|rewrite (C3 q Hq); intuition]. }
    assert (S3 : psize (set_diff (m_all to) (m_all from)) = 0).
    { apply psize_none. intros q. rewrite AA. destruct (DEC q p) as [->|Hq]; [rewrite C1, C2; intuition congruence|rewrite (C3 q Hq); intuition]. }
    assert (S4 : psize (set_diff (m_all from) (m_all to)) = 1).
    { apply (psize_one _ p N4). intros q. rewrite AR. destruct (DEC q p) as [->|Hq]; [rewrite C1, C2; intuition congruence|rewrite (C3 q Hq); intuition]. }
    rewrite S1, S2, S3, S4. reflexivity.
Qed.
