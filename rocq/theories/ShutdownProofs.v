(* Proofs about leaving a group (Shutdown.v). *)
From Verif Require Import RaftLog Raft RaftSpec RaftChain RaftNode Membership MembershipSpec MembershipProofs UtilProofs CoreTx CoreTxSpec Shutdown.

Lemma sigterm_spec l i : sigterm l = Some i <->
  (exists s1 s2, nth_error l i = Some (TxAnswer s1, TxAnswer s2)) /\
  forall j t1 t2, (j < i)%nat -> nth_error l j = Some (t1, t2) -> t1 = TxErr \/ t2 = TxErr.
Proof.
  revert i. induction l as [|[t1 t2] l IH]; intros i; cbn [sigterm].
  { split; [discriminate|]. intros [(s1 & s2 & E) _]. destruct i; discriminate. }
  destruct (negb (failed t1) && negb (failed t2))%bool eqn:Ef.
  - destruct t1 as [|s1], t2 as [|s2]; try discriminate. split.
    + intros [= <-]. split; [exists s1, s2; reflexivity|]. intros j ? ? H. lia.
    + intros [_ H]. destruct i as [|i]; [reflexivity|]. destruct (H 0%nat _ _ ltac:(lia) eq_refl); discriminate.
  - assert (He : t1 = TxErr \/ t2 = TxErr) by (destruct t1, t2; auto; discriminate).
    split.
    + destruct (sigterm l) as [k|] eqn:Es; [|discriminate]. intros [= <-]. destruct (proj1 (IH k) eq_refl) as [H1 H2]. split; [exact H1|].
      intros [|j] u1 u2 Hj E; [injection E as <- <-; assumption|]. apply (H2 j); [lia|exact E].
    + intros [(s1 & s2 & E) H]. destruct i as [|i]. { injection E as -> ->. destruct He; discriminate. }
      rewrite (proj2 (IH i)); [reflexivity|]. split; [exists s1, s2; exact E|]. intros j u1 u2 Hj Ej. apply (H (S j)); [lia|exact Ej].
Qed.

Lemma from_proto_members g out m : from_proto_aux g out = (m, M_OK) ->
  forall p, (In p (m_all m) <-> In p (m_all out) \/ exists r, In r g /\ rp_id r = p) /\
            (In p (m_voting m) <-> In p (m_voting out) \/ exists r, In r g /\ rp_id r = p /\ rp_voting r = true).
Proof.
  revert out. induction g as [|r g IH]; intros out E p; cbn [from_proto_aux] in E.
  { injection E as <-. split; (split; [now left|intros [H|(r & [] & _)]; exact H]). }
  destruct (negb _); [discriminate|]. destruct (pmem _ _); [discriminate|]. destruct (IH _ E p) as [H1 H2]. cbn [m_all m_voting] in *. split.
  - rewrite H1, pins_In. split.
    + intros [[->|H]|(r' & Hr & E')]; [right; exists r; split; [now left|reflexivity]|now left|right; exists r'; split; [now right|assumption]].
    + intros [H|(r' & [->|Hr] & E')]; [now (left; right)|left; left; congruence|right; eauto].
  - rewrite H2. destruct (rp_voting r) eqn:Ev; [rewrite pins_In|]; split.
    + intros [[->|H]|(r' & Hr & E')]; [right; exists r; split; [now left|auto]|now left|right; exists r'; split; [now right|assumption]].
    + intros [H|(r' & [->|Hr] & E' & V)]; [now (left; right)|left; left; congruence|right; eauto].
    + intros [H|(r' & Hr & E')]; [now left|right; exists r'; split; [now right|assumption]].
    + intros [H|(r' & [->|Hr] & E' & V)]; [now left|congruence|right; eauto].
Qed.
Lemma without_members m0 from m : wf_members m0 -> from_proto (without from (as_proto m0)) = (m, M_OK) ->
  forall p, (In p (m_all m) <-> In p (m_all m0) /\ p <> from) /\ (In p (m_voting m) <-> In p (m_voting m0) /\ p <> from).
Proof.
  intros (_ & _ & Hi) E p. destruct (from_proto_members _ _ _ E p) as [H1 H2]. cbn [m_all m_voting] in *.
  assert (Hin : forall r, In r (without from (as_proto m0)) <-> In (rp_id r) (m_all m0) /\ rp_voting r = pmem (rp_id r) (m_voting m0) /\ rp_id r <> from).
  { intros r. unfold without, as_proto. rewrite filter_In, in_map_iff. split.
    - intros [(q & <- & Hq) Hb]. cbn [rp_id rp_voting] in *. split; [assumption|]. split; [reflexivity|]. intros ->. rewrite beq_refl in Hb. discriminate.
    - intros (Ha & Hv & Hn). split; [exists (rp_id r); split; [destruct r; cbn in *; now subst|assumption]|]. destruct (beq (rp_id r) from) eqn:Eb; [apply beq_eq in Eb; contradiction|reflexivity]. }
  split.
  - rewrite H1. split; [intros [[]|(r & Hr & <-)]; apply Hin in Hr; tauto|]. intros [Ha Hn]. right. exists (Replica p (pmem p (m_voting m0))). rewrite Hin. cbn [rp_id rp_voting]. auto.
  - rewrite H2. split.
    + intros [[]|(r & Hr & <- & Hv)]. apply Hin in Hr as (Ha & Hv' & Hn). split; [|assumption]. rewrite Hv in Hv'. now apply pmem_In.
    + intros [Hv Hn]. right. exists (Replica p (pmem p (m_voting m0))). rewrite Hin. cbn [rp_id rp_voting]. apply pmem_In in Hv as Hv'. auto 6.
Qed.

Section Removal.
Variable sz : sizes.
Variable hmac : bytes -> bytes -> bytes.

(* a request for a membership that is accepted *)
Lemma accepted_member ok rnd g n n' a l : rstep sz hmac n (ORequest ok rnd (IMember g)) = Ret (n', a) -> a_loc a = Some (l, RE_OK) ->
  exists m, from_proto g = (m, M_OK) /\ is_leader n = true /\ n_unc n = [] /\ valid_progression (n_me n) (n_mem n) m (n_sm n) = M_OK.
Proof.
  intros E Ea. cbn [rstep] in E. apply bind_inv in E as ([n1 [l1 er]] & E1 & E). injection E as <- <-. cbn [a_loc] in Ea. injection Ea as -> ->.
  unfold log_request in E1. cbv zeta in E1. destruct (n_role n) as [| |fs hb rel] eqn:Er; [discriminate|discriminate|]. destruct rel; [discriminate|].
  destruct (n_unc n) as [|u us] eqn:Eu; [|discriminate]. destruct (from_proto g) as [m me] eqn:Em. destruct me; try discriminate.
  destruct (valid_progression (n_me n) (n_mem n) m (n_sm n)) eqn:Ev; try discriminate. exists m. repeat (split; [auto|]); [|assumption]. unfold is_leader. now rewrite Er.
Qed.
Lemma refused_member ok rnd g n n' a : (forall m, from_proto g = (m, M_OK) -> ~ In (n_me n) (m_voting m)) ->
  rstep sz hmac n (ORequest ok rnd (IMember g)) = Ret (n', a) -> exists l er, a_loc a = Some (l, er) /\ er <> RE_OK /\ rerr_code er <> 0 /\ n' = set_out [] n.
Proof.
  intros Hm E. cbn [rstep] in E. apply bind_inv in E as ([n1 [l1 er]] & E1 & E). injection E as <- <-. cbn [a_loc]. exists l1, er. split; [reflexivity|].
  unfold log_request in E1. cbv zeta in E1.
  destruct (n_role n) as [| |fs hb rel]; [injection E1 as <- <- <-; split; [discriminate|split; [discriminate|reflexivity]]|injection E1 as <- <- <-; split; [discriminate|split; [discriminate|reflexivity]]|].
  destruct rel; [injection E1 as <- <- <-; split; [discriminate|split; [discriminate|reflexivity]]|].
  destruct (n_unc n); [|injection E1 as <- <- <-; split; [discriminate|split; [discriminate|reflexivity]]].
  destruct (from_proto g) as [m e]. destruct e; try (injection E1 as <- <- <-; split; [discriminate|split; [discriminate|reflexivity]]). specialize (Hm m eq_refl).
  destruct (valid_progression (n_me n) (n_mem n) m (n_sm n)) eqn:Ev; try (injection E1 as <- <- <-; split; [discriminate|split; [discriminate|reflexivity]]).
  exfalso. unfold valid_progression in Ev. apply pmem_nIn in Hm. cbv zeta in Ev. rewrite Hm in Ev. cbn [negb] in Ev.
  repeat match type of Ev with (if ?b then _ else _) = _ => destruct b; try discriminate end.
Qed.

(* the last replica of a group, once it is to give up leading *)
Definition stuck (n : node) : Prop := m_all (mship n) = [n_me n] /\ incl (m_voting (mship n)) (m_all (mship n)) /\ n_unc n = [] /\ exists fs hb, n_role n = Leader fs hb true.
Definition same_log (n n' : node) : Prop := n_log n' = n_log n /\ n_me n' = n_me n /\ n_term n' = n_term n.
Lemma same_log_refl n : same_log n n. Proof. repeat split. Qed.
Lemma stuck_change ok rnd n n' : stuck n -> change_state sz hmac ok rnd n = Ret n' -> stuck n' /\ same_log n n'.
Proof.
  intros (Ha & Hv & Hu & fs & hb & Hr) E. unfold change_state in E. apply bind_inv in E as (n1 & E1 & E).
  assert (n1 = n) as -> by (unfold maybe_become_leader in E1; rewrite Hr in E1; now injection E1). clear E1.
  apply bind_inv in E as (n2 & E2 & E).
  assert (H2 : stuck n2 /\ same_log n n2).
  { destruct ok; [|injection E2 as <-; split; [now repeat (split; [assumption|]); eauto|apply same_log_refl]].
    unfold advance_commit in E2. rewrite Hr in E2. apply bind_inv in E2 as (np & _ & E2). cbv zeta in E2. apply bind_inv in E2 as (nc & _ & E2).
    set (b1 := n_promise n <? np) in E2. set (na := if b1 then set_promise np n else n) in E2.
    assert (Na : stuck na /\ same_log n na /\ n_role na = n_role n).
    { unfold na. destruct b1; (split; [|split; [repeat split|reflexivity]]); (split; [exact Ha|split; [exact Hv|split; [exact Hu|exists fs, hb; exact Hr]]]). }
    clearbody na. set (b2 := n_commit na <? nc) in E2. set (nb := if b2 then refresh_members (set_commit nc na) else na) in E2.
    assert (Nb : stuck nb /\ same_log n nb).
    { destruct Na as [(Ha1 & Hv1 & Hu1 & fs1 & hb1 & Hr1) [(S1 & S2 & S3) _]]. unfold nb. destruct b2.
      - unfold refresh_members. cbn [set_commit n_unc n_commit n_mem n_log]. rewrite Hu1. cbn [pop_committed rev pop_cancelled length Nat.eqb].
        split; [split; [exact Ha1|split; [exact Hv1|split; [exact Hu1|exists fs1, hb1; exact Hr1]]]|repeat split; assumption].
      - split; [split; [exact Ha1|split; [exact Hv1|split; [exact Hu1|exists fs1, hb1; exact Hr1]]]|repeat split; assumption]. }
    clearbody nb. clear Na. destruct Nb as [(Ha1 & Hv1 & Hu1 & fs1 & hb1 & Hr1) (S1 & S2 & S3)]. injection E2 as <-.
    destruct (b1 || b2)%bool; [|split; [split; [exact Ha1|split; [exact Hv1|split; [exact Hu1|exists fs1, hb1; exact Hr1]]]|repeat split; assumption]].
    unfold mark_update. rewrite Hr1. split; [split; [exact Ha1|split; [exact Hv1|split; [exact Hu1|eexists; eexists; reflexivity]]]|repeat split; assumption]. }
  destruct H2 as [(Ha2 & Hv2 & Hu2 & fs2 & hb2 & Hr2) S2]. apply bind_inv in E as (n3 & E3 & E).
  assert (n3 = n2) as ->. { unfold send_all in E3. rewrite Ha2 in E3. cbn [fold_left bind] in E3. rewrite beq_refl in E3. now injection E3. }
  rewrite Hr2 in E. unfold try_relinquish in E. rewrite Hr2 in E.
  destruct (find _ _) as [p|] eqn:Ef.
  - apply find_some in Ef as [Hin Hp]. apply Hv2 in Hin. rewrite Ha2 in Hin. destruct Hin as [<-|[]]. rewrite beq_refl in Hp. discriminate.
  - injection E as <-. split; [|assumption]. split; [assumption|]. split; [assumption|]. split; [assumption|]. eauto.
Qed.
Lemma stuck_out n : stuck n -> stuck (set_out [] n).
Proof. intros (Ha & Hv & Hu & fs & hb & Hr). split; [exact Ha|]. split; [exact Hv|]. split; [exact Hu|]. exists fs, hb. exact Hr. Qed.
Lemma stuck_step n o n' a : stuck n -> (forall ok1 ok2 rnd from m, o = OReceive ok1 ok2 rnd from m -> from <> n_me n) ->
  rstep sz hmac n o = Ret (n', a) -> stuck n' /\ same_log n n' /\ (forall l er, a_loc a = Some (l, er) -> er = RE_NotLeader).
Proof.
  intros Hs Hm E. pose proof Hs as (Ha & Hv & Hu & fs & hb & Hr).
  assert (Hrole : forall fs1 hb1, stuck (set_role (Leader fs1 hb1 true) n)) by (intros fs1 hb1; split; [exact Ha|split; [exact Hv|split; [exact Hu|exists fs1, hb1; reflexivity]]]).
  assert (Hout : forall n1 l t, stuck n1 -> same_log n n1 -> (n', a) = sent n1 l t -> (forall x er, l = Some (x, er) -> er = RE_NotLeader) ->
    stuck n' /\ same_log n n' /\ (forall l er, a_loc a = Some (l, er) -> er = RE_NotLeader)).
  { intros n1 l t H1 H2 H3 H4. unfold sent in H3. injection H3 as -> ->. split; [now apply stuck_out|]. split; [exact H2|exact H4]. }
  destruct o as [ok rnd|ok1 ok2 rnd from m|id|c|ok rnd|ok rnd x|]; cbn [rstep] in E.
  - apply bind_inv in E as (n1 & E1 & E). injection E as <- <-. unfold timer_tick in E1. rewrite Hr in E1. cbv zeta in E1. apply bind_inv in E1 as (n2 & E2 & E1).
    assert (H2 : stuck n2 /\ same_log n n2) by (destruct (_ <=? _)%Z; injection E2 as <-; (split; [apply Hrole|repeat split])). destruct H2 as [H2 (S1 & S2 & S3)].
    destruct (stuck_change ok rnd n2 n1 H2 E1) as [H3 (T1 & T2 & T3)]. apply (Hout n1 None None); auto; [|discriminate]. repeat split; congruence.
  - apply bind_inv in E as (n1 & E1 & E). injection E as <- <-. assert (n1 = n) as ->; [|apply (Hout n None None); auto; [apply same_log_refl|discriminate]].
    unfold receive in E1. assert (Hnp : exists er, validate_msg m from n = Ret er /\ er <> RE_OK).
    { unfold validate_msg. destruct (negb (m_group m =? n_group n)); [eexists; split; [reflexivity|discriminate]|]. rewrite Ha.
      destruct (pmem from [n_me n]) eqn:Ep; [|eexists; split; [reflexivity|discriminate]]. apply pmem_In in Ep as [Ep|[]]. destruct (Hm _ _ _ _ _ eq_refl). congruence. }
    destruct Hnp as (er & Ev & Hne). rewrite Ev in E1. cbn [bind] in E1. destruct er; try congruence; now injection E1.
  - apply bind_inv in E as (n1 & E1 & E). injection E as <- <-. unfold reset_peer in E1.
    assert (H1 : stuck n1 /\ same_log n n1).
    { destruct (negb _); [injection E1 as <-; split; [exact Hs|apply same_log_refl]|]. rewrite Hr in E1. destruct (lookup id fs); injection E1 as <-; (split; [auto|repeat split]). }
    destruct H1 as [H1 H2]. apply (Hout n1 None None); auto; discriminate.
  - injection E as <- <-. unfold reconfigure. rewrite Hr. split; [|split; [repeat split|discriminate]]. split; [exact Ha|]. split; [exact Hv|]. split; [exact Hu|]. eexists; eexists; reflexivity.
  - apply bind_inv in E as (n1 & E1 & E). injection E as <- <-. unfold relinquish in E1. rewrite Hr in E1. injection E1 as <-. apply (Hout n None None); auto; [apply same_log_refl|discriminate].
  - apply bind_inv in E as ([n1 [l er]] & E1 & E). injection E as <- <-. unfold log_request, client_request in E1. cbv zeta in E1. rewrite Hr in E1.
    assert (H1 : stuck n1 /\ same_log n n1 /\ er = RE_NotLeader).
    { destruct x; cbn [bind] in E1; try (injection E1 as <- <- <-; split; [exact Hs|split; [apply same_log_refl|reflexivity]]);
      apply bind_inv in E1 as (n2 & E2 & E1); injection E1 as <- <- <-; destruct (stuck_change ok rnd n n2 Hs E2); auto. }
    destruct H1 as (H1 & H2 & ->). apply (Hout n1 (Some (l, RE_NotLeader)) None); auto. intros x' er [= _ <-]. reflexivity.
  - apply bind_inv in E as ([n1 t] & E1 & E). injection E as <- <-. unfold take_committed in E1.
    assert (H1 : stuck n1 /\ same_log n n1).
    { destruct (_ <=? _); [injection E1 as <- <-; split; [exact Hs|apply same_log_refl]|]. cbv zeta in E1. destruct (at_idx _ _); [|discriminate]. injection E1 as <- <-.
      split; [|repeat split]. split; [exact Ha|]. split; [exact Hv|]. split; [exact Hu|]. exists fs, hb. exact Hr. }
    destruct H1 as [H1 H2]. apply (Hout n1 None t); auto; discriminate.
Qed.
Lemma stuck_run h : forall n n' rs, stuck n -> Forall (fun o => match o with OReceive _ _ _ from _ => from <> n_me n | _ => True end) h ->
  exec (rstep sz hmac) n h = Ret (n', rs) -> stuck n' /\ same_log n n' /\ Forall (fun a => forall l er, a_loc a = Some (l, er) -> er = RE_NotLeader) rs.
Proof.
  induction h as [|o h IH]; intros n n' rs Hs Hf E; cbn [exec] in E.
  { injection E as <- <-. split; [assumption|]. split; [apply same_log_refl|constructor]. }
  inversion Hf as [|? ? F1 F2]; subst. destruct (rstep sz hmac n o) as [[n1 a]|] eqn:Es; [|discriminate].
  destruct (stuck_step n o n1 a Hs) as (H1 & (S1 & S2 & S3) & H2); [intros ok1 ok2 rnd from m ->; exact F1|exact Es|].
  destruct (exec (rstep sz hmac) n1 h) as [[n2 rs2]|] eqn:Eh; [|discriminate]. injection E as <- <-.
  destruct (IH n1 n2 rs2 H1) as (H3 & (T1 & T2 & T3) & H4); [now rewrite S2|exact Eh|]. split; [assumption|]. split; [repeat split; congruence|]. constructor; assumption.
Qed.
(* the only member there is, which leads *)
Definition sole (n : node) : Prop := m_all (mship n) = [n_me n] /\ m_voting (mship n) = [n_me n] /\ n_unc n = [] /\ exists fs hb, n_role n = Leader fs hb false.
Lemma sole_relinquish ok rnd n n' nx : sole n -> relinquish_request sz hmac true ok rnd n = Ret (n', nx) ->
  stuck n' /\ n_me n' = n_me n /\ nx = WhenApplied (Loc (last_term (n_log n') + 1) (next_idx (n_log n')) []).
Proof.
  intros (Ha & Hv & Hu & fs & hb & Hr) E. unfold relinquish_request, is_leader in E. rewrite Hr in E. cbn [negb orb] in E. apply bind_inv in E as ([n1 a] & E1 & E). injection E as <- <-.
  cbn [rstep] in E1. apply bind_inv in E1 as (n2 & E2 & E1). unfold sent in E1. injection E1 as <- <-.
  enough (H : stuck n2 /\ n_me n2 = n_me n) by (destruct H; split; [now apply stuck_out|split; [assumption|reflexivity]]).
  unfold relinquish in E2. rewrite Hr in E2. apply bind_inv in E2 as ([n3 r] & E3 & E2).
  assert (H3 : exists l, n3 = set_log l n).
  { unfold client_request in E3. rewrite Hr in E3. unfold log_append in E3. cbn [e_inner] in E3. apply bind_inv in E3 as ([l er] & _ & E3). exists l. destruct er; now injection E3. }
  destruct H3 as [l ->]. cbn [set_log n_role] in E2. rewrite Hr in E2.
  enough (H0 : stuck (set_role (Leader fs hb true) (set_log l n))) by (destruct (stuck_change ok rnd _ n2 H0 E2) as [H4 (_ & H5 & _)]; split; [assumption|exact H5]).
  split; [exact Ha|]. split; [unfold mship in *; cbn [set_role set_log n_unc n_mem]; rewrite Ha, Hv; apply incl_refl|]. split; [exact Hu|]. eexists; eexists; reflexivity.
Qed.
End Removal.
