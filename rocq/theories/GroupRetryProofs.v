(* Proofs about requests that are to be tried again, and that none is run twice. *)
From Verif Require Import CoreTxSpec CoreTxProofs Group GroupSpec GroupProofs GroupRetrySpec MembershipSpec MembershipProofs RaftChain RaftNode RaftRun
  RaftNetSpec RaftNetProofs RaftMoveSpec RaftMoveProofs RaftShape RaftFreshProofs RaftNewProofs UtilProofs.

Section Core.
Variable sz : sizes.
Variable hmac : bytes -> bytes -> bytes.
Variables D E : Type.
Variable apply : D -> bytes -> D * option E.
Variable respond : N -> E -> option bytes.
Variable min_voting : N.
Notation core := (core D).
Notation cstep := (cstep sz hmac D E apply respond min_voting).
Notation c_node := (c_node D). Notation c_watch := (c_watch D). Notation c_fwd := (c_fwd D). Notation c_count := (c_count D).
Notation raft_call := (raft_call D min_voting).

Ltac noretry := let H := fresh in intros H; destruct H as [H|[H|H]]; discriminate H.
Lemma rerr_no_retry er : ~ retry_code (rerr_code er).
Proof. destruct er as [| | |e|e| | | | | | | |]; try noretry; destruct e; noretry. Qed.
(* an error that asks to retry comes from an outcome that does *)
Lemma callback_retry q res o o' a code : callback E respond q res o = (o', a) -> snd a = SError code -> retry_code code ->
  exists c, res = inl c /\ retry_code c.
Proof.
  unfold callback. destruct (q_by q) as [c|].
  - destruct res as [cd|[eff|]].
    + intros X; injection X as <- <-. cbn [snd]. intros X; injection X as <-. intros H. exists cd. split; [reflexivity|].
      destruct (cd =? E_LogCancelled) eqn:Ec; [apply N.eqb_eq in Ec; subst; right; now left|assumption].
    + destruct (existsb _ _); [destruct (respond _ _)|]; intros X; injection X as <- <-; cbn [snd]; intros X; try discriminate; injection X as <-; noretry.
    + intros X; injection X as <- <-; cbn [snd]. intros X; injection X as <-; noretry.
  - intros X; injection X as <- <-. cbn [snd]. destruct res as [cd|]; [|discriminate]. intros X; injection X as <-. eauto.
Qed.
Lemma callbacks_in l : forall o o' r q a, callbacks E respond l o = (o', r) -> In (q, a) r ->
  exists res, In (q, res) l /\ forall code, a = SError code -> retry_code code -> exists c, res = inl c /\ retry_code c.
Proof.
  induction l as [|[q0 res] l IH]; intros o o' r q a H Hin; cbn in H; [injection H as <- <-; contradiction|].
  destruct (callback E respond q0 res o) as [o1 a1] eqn:E1. destruct (callbacks E respond l o1) as [o2 r2] eqn:E2. injection H as <- <-.
  destruct Hin as [Hin|Hin].
  - pose proof (callback_req E respond _ _ _ _ _ E1) as Hr. subst a1. cbn in Hr. subst q0. exists res. split; [now left|].
    intros code Ha Hc. eapply callback_retry; [exact E1|exact Ha|exact Hc].
  - destruct (IH _ _ _ _ _ E2 Hin) as (res' & H1 & H2). exists res'. split; [now right|assumption].
Qed.
Lemma outcome_retry e eff l c : outcome_for E e eff l = inl c -> retry_code c -> lc_term l <> e_term e.
Proof.
  unfold outcome_for. destruct (lc_term l =? e_term e) eqn:Et; cbn [negb]; [|intros _ _; lia].
  destruct (_ && _)%bool; [|discriminate]. intros X; injection X as <-. noretry.
Qed.
Lemma refuse_says code q s s' r : Ret (refuse D E respond code q s) = Ret (s', r) -> c_fwd s' = c_fwd s /\
  forall q1 a, In (q1, a) (r_said r) -> q1 = q /\ forall c, a = SError c -> retry_code c -> retry_code code.
Proof.
  unfold refuse. destruct (callback E respond q (inl code) _) as [op a] eqn:Ec. intros X; injection X as <- <-. split; [reflexivity|].
  cbn [r_said]. intros q1 a1 [X|[]]. subst a. split; [exact (callback_req E respond _ _ _ _ _ Ec)|].
  intros c Ha Hc. destruct (callback_retry _ _ _ _ _ _ Ec Ha Hc) as (c1 & X & Y). injection X as <-. exact Y.
Qed.
Record wrote (s s' : core) (r : cres) (tx : N) (by_ : asker) (x : inner) (ok : bool) (rnd : Z) (b : bool) : Prop := MkWrote {
  wt_call : raft_call s (CWrite tx by_ x ok rnd b) = None \/ c_fwd s' = c_fwd s;
  wt_said : forall q a, In (q, a) (r_said r) -> q = Req (c_count s + 1) tx by_ /\
    forall code, a = SError code -> retry_code code -> c_fwd s' = c_fwd s /\ raft_call s (CWrite tx by_ x ok rnd b) = None
}.
Lemma write_wrote s s' r tx by_ x ok rnd b : cstep s (CWrite tx by_ x ok rnd b) = Ret (s', r) -> wrote s s' r tx by_ x ok rnd b.
Proof.
  intros Es. cbn [CoreTx.cstep] in Es. unfold write in Es. set (q := Req (c_count s + 1) tx by_) in *.
  assert (Ref : forall code t, c_fwd t = c_fwd s -> (raft_call s (CWrite tx by_ x ok rnd b) = None \/ ~ retry_code code) ->
    Ret (refuse D E respond code q t) = Ret (s', r) -> wrote s s' r tx by_ x ok rnd b).
  { intros code t Ht Hc X. destruct (refuse_says _ _ _ _ _ X) as [H1 H2]. constructor; [right; congruence|].
    intros q1 a Hin. destruct (H2 q1 a Hin) as [-> H3]. split; [reflexivity|]. intros c Ha Hr. split; [congruence|]. specialize (H3 c Ha Hr). tauto. }
  assert (Hcall : raft_call s (CWrite tx by_ x ok rnd b) = if (match by_ with AClient c => existsb (N.eqb c) (c_open D s) | AHost => true end && c_part D s && is_leader (c_node s)
          && negb (psize (m_voting (mship (c_node s))) <? min_voting))%bool then Some (ORequest ok rnd x) else None) by reflexivity.
  destruct (match by_ with AClient c => existsb (N.eqb c) (c_open D s) | AHost => true end); cbn [negb andb] in *; [|eauto].
  destruct (c_part D s); cbn [negb andb] in *; [|eauto].
  destruct (is_leader (c_node s)) eqn:El; cbn [negb andb] in *.
  - destruct (psize (m_voting (mship (c_node s))) <? min_voting); cbn [negb] in *; [eauto|].
    destruct (rstep sz hmac (c_node s) (ORequest ok rnd x)) as [[n a1]|] eqn:Er; [|discriminate]. cbn [bind] in Es.
    assert (Ref2 : forall code, ~ retry_code code -> Ret (refuse D E respond code q (set_node D n s)) = Ret (s', r) -> wrote s s' r tx by_ x ok rnd b).
    { intros code Hn X. exact (Ref code (set_node D n s) eq_refl (or_intror Hn) X). }
    destruct (a_loc a1) as [[l er]|]; [|apply (Ref2 0); [noretry|assumption]].
    destruct er; try (eapply Ref2; [|exact Es]; apply rerr_no_retry). injection Es as <- <-. constructor; [now right|intros ? ? []].
  - destruct (n_role (c_node s)) as [[ld|] el| |]; eauto. destruct b; [|eauto]. injection Es as <- <-. constructor; [now left|intros ? ? []].
Qed.
Lemma said_from s o s' r q a : cstep s o = Ret (s', r) -> In (q, a) (r_said r) ->
  (exists tx by_ x ok rnd b, o = CWrite tx by_ x ok rnd b /\ q = Req (c_count s + 1) tx by_ /\
     forall code, a = SError code -> retry_code code -> c_fwd s' = c_fwd s /\ raft_call s o = None) \/
  (exists no an, o = CAnswer no an /\ In q (c_fwd s) /\
     forall code, a = SError code -> retry_code code -> exists c, an = FError c /\ retry_code c) \/
  (exists ok i e w, o = CTake ok /\ r_taken r = Some (i, e) /\ In w (c_watch s) /\ w_req w = q /\
     forall code, a = SError code -> retry_code code -> lc_idx (w_at w) = i /\ lc_term (w_at w) <> e_term e).
Proof.
  intros Es Hin. destruct o as [tx by_ x ok rnd b|no an|o|ok|c|c].
  - left. destruct (wt_said _ _ _ _ _ _ _ _ _ (write_wrote _ _ _ _ _ _ _ _ _ Es) q a Hin) as [H1 H2]. exists tx, by_, x, ok, rnd, b. auto.
  - right; left. exists no, an. split; [reflexivity|]. cbn [CoreTx.cstep] in Es. injection Es as Es. unfold answer in Es.
    destruct (find _ (c_fwd s)) as [q1|] eqn:Ef; [|injection Es as <- <-; contradiction]. apply find_some in Ef as [Hf _].
    assert (One : forall cd op r1, callback E respond q1 (inl cd) (c_open D s) = (op, r1) -> In (q, a) [r1] -> In q (c_fwd s) /\
      forall code, a = SError code -> retry_code code -> retry_code cd).
    { intros cd op r1 Ec [X|[]]. subst r1. pose proof (callback_req E respond _ _ _ _ _ Ec) as X. cbn in X. subst q1. split; [assumption|].
      intros code Ha Hc. destruct (callback_retry _ _ _ _ _ _ Ec Ha Hc) as (c1 & X & Y). injection X as <-. exact Y. }
    destruct an as [cd|l|].
    + destruct (callback E respond q1 (inl cd) (c_open D s)) as [op r1] eqn:Ec. injection Es as <- <-. destruct (One _ _ _ Ec Hin) as [H1 H2].
      split; [assumption|]. intros code Ha Hc. exists cd. eauto.
    + injection Es as <- <-. contradiction.
    + destruct (callback E respond q1 (inl _) (c_open D s)) as [op r1] eqn:Ec. injection Es as <- <-. destruct (One _ _ _ Ec Hin) as [H1 H2].
      split; [assumption|]. intros code Ha Hc. exfalso. specialize (H2 code Ha Hc). revert H2. noretry.
  - exfalso. assert (Hd : (let* '(n, _) := rstep sz hmac (c_node s) o in Ret (set_node D n s, quiet_res)) = Ret (s', r) -> False).
    { intros X. destruct (rstep sz hmac (c_node s) o) as [[n a1]|]; [|discriminate]. cbn in X. injection X as <- <-. contradiction. }
    cbn [CoreTx.cstep] in Es. destruct o; try (exact (Hd Es)). injection Es as <- <-. contradiction.
  - right; right. cbn [CoreTx.cstep] in Es. unfold take in Es. destruct (rstep sz hmac (c_node s) OTake) as [[n a1]|]; [|discriminate]. cbn [bind] in Es.
    destruct (a_taken a1) as [[i e]|]; [|injection Es as <- <-; contradiction]. destruct ok; cbn [negb] in Es; [|discriminate].
    destruct (match e_inner e with IData d => apply (c_db D s) d | _ => (c_db D s, None) end) as [db eff].
    set (removed := match e_inner e with IMember g => (c_part D s && negb (contains_me (n_me n) g))%bool | _ => false end) in *. clearbody removed.
    destruct (callbacks _ _ _ (c_open D s)) as [op said] eqn:Ec. injection Es as <- <-. cbn [r_said r_taken] in *.
    destruct (callbacks_in _ _ _ _ _ _ Ec Hin) as (res & H1 & H2). exists true, i, e. apply in_app_or in H1 as [H1|H1].
    + destruct removed; [|contradiction]. apply in_map_iff in H1 as [w [X Hw]]. injection X as X <-. exists w. do 4 (split; [auto|]).
      intros code Ha Hc. destruct (H2 code Ha Hc) as (c1 & X1 & X2). injection X1 as <-. exfalso. revert X2. noretry.
    + apply in_map_iff in H1 as [w [X Hw]]. apply filter_In in Hw as [Hw Hidx]. apply N.eqb_eq in Hidx. injection X as X Ho.
      assert (Hw' : In w (c_watch s)) by (destruct removed; [contradiction|assumption]). exists w. do 4 (split; [auto|]).
      intros code Ha Hc. destruct (H2 code Ha Hc) as (c1 & X1 & X2). split; [assumption|]. rewrite X1 in Ho. eapply outcome_retry; eassumption.
  - cbn in Es. injection Es as <- <-. contradiction.
  - cbn in Es. injection Es as <- <-. contradiction.
Qed.
End Core.

Section Group.
Variable sz : sizes.
Variable hmac : bytes -> bytes -> bytes.
Variables D E : Type.
Variable apply : D -> bytes -> D * option E.
Variable respond : N -> E -> option bytes.
Variable min_voting : N.
Variable M : members.
Variable sm : N.
Variable L0 : list entry.
Variable db0 : D.
Variable Fm : members -> Prop.
Hypothesis HFM : Fm M.
Hypothesis Hwf : forall m, Fm m -> wf_members m.
Variable F : list (bytes * seen E).
Notation core := (core D).
Notation cstep := (cstep sz hmac D E apply respond min_voting).
Notation c_node := (c_node D). Notation c_db := (c_db D). Notation c_watch := (c_watch D).
Notation c_fwd := (c_fwd D). Notation c_count := (c_count D).
Notation raft_call := (raft_call D min_voting).
Notation group := (group D E).
Notation g_now := (g_now D E). Notation g_past := (g_past D E). Notation g_soup := (g_soup D E). Notation g_fwd := (g_fwd D E).
Notation g_ans := (g_ans D E). Notation g_seen := (g_seen D E). Notation g_rolled := (g_rolled D E).
Notation Asked := (Asked E). Notation Took := (Took E). Notation Said := (Said E).
Notation move := (move D E).
Notation gall := (gall hmac D E apply respond sm L0 db0 Fm F).
Notation gstep := (gstep sz hmac D E apply respond min_voting).
Notation grun := (grun sz hmac D E apply respond min_voting).
Hypothesis HFm : forall k q x, In (k, Asked q x) F -> within Fm x.
(* the request that is looked at *)
Variable k0 : bytes.
Variable q0 : req.
Variable d : bytes.
Notation X := (IData d).
Hypothesis Hone : forall k q, In (k, Asked q X) F -> k = k0 /\ q = q0.

(* it has a place in a log *)
Definition placed (g : group) (i : N) (e : entry) : Prop :=
  llen L0 < i /\ e_inner e = X /\ exists k s A, gwas g k s A /\ nth_entry A i = Some e.
Definition sent_on (g : group) (j : nat) : Prop := exists k no, nth_error (g_fwd g) j = Some (k, (no, X)).
Definition no_trace (g : group) : Prop := (forall j, ~ sent_on g j) /\ forall i e, ~ placed g i e.
Definition overruled (g : group) : Prop := exists i e0 e eff, placed g i e0 /\ saw g k0 (Took i e eff) /\ e_term e0 <> e_term e.
Record once (done : list gevent) (g : group) : Prop := MkOnce {
  on_one : forall i1 e1 i2 e2, placed g i1 e1 -> placed g i2 e2 -> i1 = i2 /\ e1 = e2;
  on_fwd : forall j1 j2, sent_on g j1 -> sent_on g j2 -> j1 = j2;
  on_placed : forall i e, placed g i e -> saw g k0 (Asked q0 X) /\ forall j, sent_on g j -> exists ev, In ev done /\ serves j ev = true;
  on_asked : forall a, ~ In k0 (g_rolled g) -> saw g k0 (Said q0 a) -> exists x, saw g k0 (Asked q0 x);
  on_said : forall code, ~ In k0 (g_rolled g) -> saw g k0 (Said q0 (SError code)) -> retry_code code -> saw g k0 (Asked q0 X) -> no_trace g \/ overruled g;
  on_ans : forall to no code, In (to, (no, FError code)) (g_ans g) -> ~ retry_code code
}.

(* where an entry that holds the request comes from *)
Definition heard (g : group) (ro : rop) : Prop := match ro with OReceive _ _ _ from m => exists to, In (from, (to, m)) (g_soup g) | _ => True end.
Lemma placed_call g k s A ro s' a msgs fwd ans sn i e : gall g -> unclashed (map strip (g_past g)) ->
  lookup k (g_now g) = Some (s, A) -> heard g ro -> rstep sz hmac (c_node s) ro = Ret (c_node s', a) ->
  gall (move k s' (regrow A (n_log (c_node s'))) msgs fwd ans sn g) ->
  placed (move k s' (regrow A (n_log (c_node s'))) msgs fwd ans sn g) i e ->
  placed g i e \/ (i = nxt (n_log (c_node s)) /\ nth_entry (regrow A (n_log (c_node s'))) i = Some e /\ exists ok rnd, ro = ORequest ok rnd X).
Proof.
  intros HI Hun El Hh Er HI' (Hi & Hx & k1 & s1 & A1 & Hw & He).
  apply gwas_move in Hw as [Hw|(-> & -> & ->)]; [left; split; [assumption|]; split; [assumption|]; exists k1, s1, A1; auto|].
  pose proof (q_now _ _ _ _ _ _ _ _ _ _ g HI k _ El) as Hin.
  destruct (gi_past _ _ _ _ _ _ (q_raft _ _ _ _ _ _ _ _ _ _ g HI) k (c_node s) A (strip_in _ _ _ _ Hin)) as [HR Ho].
  assert (Hnew : gwas (move k s' (regrow A (n_log (c_node s'))) msgs fwd ans sn g) k s' (regrow A (n_log (c_node s')))) by (apply gwas_move; auto).
  destruct (gi_past _ _ _ _ _ _ (q_raft _ _ _ _ _ _ _ _ _ _ _ HI') k (c_node s') _ (strip_in _ _ _ _ Hnew)) as [HR' _].
  pose proof (RI_lw _ _ _ _ _ _ _ _ _ _ _ HR) as Hlw. pose proof (RI_lw _ _ _ _ _ _ _ _ _ _ _ HR') as Hlw'.
  pose proof (ri_st _ _ _ _ _ _ _ _ _ _ _ HR) as Hst. pose proof (ri_al _ _ _ _ _ _ _ _ _ _ _ HR) as Hal.
  assert (Hap : n_applied (c_node s') <= llen A).
  { destruct (step_ok1 sz hmac (c_node s) A ro (c_node s') a (rip_ok _ _ _ _ Hwf _ _ _ _ _ HR Ho) Er) as (A2 & _ & _ & _ & Ht & _).
    destruct (a_taken a) as [[i' e']|]; [|destruct Ht as [-> _]; assumption]. destruct Ht as (_ & _ & _ & -> & _ & Hn). exact (proj2 (nth_entry_len _ _ _ Hn)). }
  assert (Hlo : 1 <= l_oldest (n_log (c_node s')) /\ l_oldest (n_log (c_node s')) <= llen A + 1) by (destruct Hlw' as (X1 & X2 & _); lia).
  pose proof He as He'. apply nth_regrow in He as [[_ He]|He]; try apply Hlo.
  { left. split; [assumption|]. split; [assumption|]. exists k, s, A. auto. }
  destruct (rstep_new sz hmac (c_node s) ro (c_node s') a Hlw Er i e He) as [H|[H|[H|[H1 (ok & rnd & H2)]]]].
  - left. split; [assumption|]. split; [assumption|]. exists k, s, A. split; [assumption|]. exact (st_at_some _ _ _ _ _ Hst H).
  - destruct ro; try (destruct H as (a1 & a2 & r & f & m' & prev & pterm & commit & es & promise & ph & i' & Y & _); discriminate).
    cbn [heard] in Hh. destruct Hh as [to Hs].
    assert (Hl : lookup k (w_now (net_of g)) = Some (c_node s, A)) by (unfold net_of; cbn [w_now]; rewrite strip_lookup, El; reflexivity).
    destruct (from_msg_sent hmac M sm L0 Fm HFM Hwf (okf E Fm F) (net_of g) k _ to _ _ _ _ i e _ _ (q_raft _ _ _ _ _ _ _ _ _ _ g HI) Hs Hl H) as (kf & nf & B & H1 & H2).
    apply in_strip in H1 as (t & _ & H1). left. split; [assumption|]. split; [assumption|]. exists kf, t, B. auto.
  - congruence.
  - right. split; [assumption|]. split; [assumption|]. exists ok, rnd. congruence.
Qed.
Lemma placed_move g k s' A' msgs fwd ans sn i e : placed g i e -> placed (move k s' A' msgs fwd ans sn g) i e.
Proof. intros (H1 & H2 & k1 & s1 & A1 & H3 & H4). split; [assumption|]. split; [assumption|]. exists k1, s1, A1. split; [apply gwas_move; auto|assumption]. Qed.
Lemma placed_quiet g k s A s' msgs fwd ans sn i e : gall g -> lookup k (g_now g) = Some (s, A) ->
  placed (move k s' A msgs fwd ans sn g) i e -> placed g i e.
Proof.
  intros HI El (H1 & H2 & k1 & s1 & A1 & H3 & H4). split; [assumption|]. split; [assumption|].
  apply gwas_move in H3 as [H3|(-> & -> & ->)]; [exists k1, s1, A1; auto|]. exists k, s, A. split; [exact (q_now _ _ _ _ _ _ _ _ _ _ g HI k _ El)|assumption].
Qed.

(* --- a step of a core --- *)
Lemma sent_old g k s' A' msgs fwd ans sn j : sent_on (move k s' A' msgs fwd ans sn g) j ->
  sent_on g j \/ (length (g_fwd g) <= j /\ exists no, nth_error fwd (j - length (g_fwd g)) = Some (no, X))%nat.
Proof.
  intros (k1 & no & H). cbn [Group.move Group.g_fwd] in H. destruct (Nat.lt_ge_cases j (length (g_fwd g))) as [Hl|Hl].
  - rewrite nth_error_app1 in H by assumption. left. exists k1, no. assumption.
  - rewrite nth_error_app2 in H by assumption. right. split; [assumption|]. rewrite nth_error_map in H. destruct (nth_error fwd _) as [[no' x']|]; [|discriminate].
    cbn in H. injection H as <- <- ->. eauto.
Qed.
Lemma sent_mono g k s' A' msgs fwd ans sn j : sent_on g j -> sent_on (move k s' A' msgs fwd ans sn g) j.
Proof.
  intros (k1 & no & H). exists k1, no. cbn [Group.move Group.g_fwd]. rewrite nth_error_app1; [assumption|]. apply nth_error_Some. congruence.
Qed.
Lemma overruled_move g k s' A' msgs fwd ans sn : overruled g -> overruled (move k s' A' msgs fwd ans sn g).
Proof. intros (i & e0 & e & eff & H1 & H2 & H3). exists i, e0, e, eff. split; [now apply placed_move|]. split; [apply saw_move; auto|assumption]. Qed.
Lemma core_once done g k o : gall g -> unclashed (map strip (g_past g)) -> copre D E Fm g k o ->
  match o with CAnswer _ (FError code) => ~ retry_code code | _ => True end ->
  gall (run_core sz hmac D E apply respond min_voting k o g) ->
  incl (g_seen (run_core sz hmac D E apply respond min_voting k o g)) F ->
  ~ In k0 (g_rolled g) -> once done g -> once done (run_core sz hmac D E apply respond min_voting k o g).
Proof.
  intros HI Hun Hp Hc HI' HF Hnr HO. destruct (run_core_move sz hmac D E apply respond min_voting k o g) as [->|(s & A & s' & r & El & Ec & Y)]; [assumption|].
  rewrite Y in *. clear Y. set (g' := move k s' _ _ _ _ _ g) in *.
  pose proof (cstep_view sz hmac D E apply respond min_voting s o s' r Ec) as Hv.
  assert (Hask : forall q x, In (Asked q x) (seen_in D E apply s o r) <-> exists tx by_ ok rnd b, o = CWrite tx by_ x ok rnd b /\ q = Req (c_count s + 1) tx by_)
    by (intros; apply seen_in_asked).
  (* asked for now: not before *)
  assert (Hnow : (exists tx by_ ok rnd b, o = CWrite tx by_ X ok rnd b) -> k = k0 /\ saw g' k0 (Asked q0 X) /\
    (forall x, ~ saw g k0 (Asked q0 x)) /\ (forall q, ~ saw g k0 (Asked q X)) /\ (forall j, ~ sent_on g j) /\ forall i e, ~ placed g i e).
  { intros (tx & by_ & ok & rnd & b & ->).
    assert (Hin : In (Asked (Req (c_count s + 1) tx by_) X) (seen_in D E apply s (CWrite tx by_ X ok rnd b) r)) by (apply Hask; exists tx, by_, ok, rnd, b; auto).
    assert (Hs' : saw g' k (Asked (Req (c_count s + 1) tx by_) X)) by (apply saw_move; auto).
    destruct (Hone _ _ (HF _ Hs')) as [-> Hq]. rewrite Hq in Hs'. split; [reflexivity|]. split; [exact Hs'|].
    assert (Hno : forall x, ~ saw g k0 (Asked q0 x)).
    { intros x H. pose proof (q_cnt _ _ _ _ _ _ _ _ _ _ g HI k0 s A q0 x Hnr El H) as Z. rewrite <- Hq in Z. cbn [q_no] in Z. lia. }
    split; [exact Hno|]. split; [|split].
    - intros q H. assert (In (k0, Asked q X) F) by (apply HF; apply saw_move; auto). destruct (Hone _ _ H0) as [_ ->]. exact (Hno X H).
    - intros j (k1 & no & H). apply nth_error_In in H. destruct (q_fwd _ _ _ _ _ _ _ _ _ _ g HI _ _ _ H) as (q & _ & H1).
      assert (In (k1, Asked q X) F) by (apply HF; apply saw_move; auto). destruct (Hone _ _ H0) as [-> ->]. exact (Hno X H1).
    - intros i e H. destruct (on_placed _ _ HO i e H) as [H1 _]. exact (Hno X H1). }
  (* new places and new forwarded requests *)
  assert (Hpl : forall i e, placed g' i e -> placed g i e \/
    (i = nxt (n_log (c_node s)) /\ nth_entry (log_after D A (raft_call s o) s') i = Some e /\ raft_call s o <> None /\ exists tx by_ ok rnd b, o = CWrite tx by_ X ok rnd b)).
  { intros i e H. unfold g' in *. destruct (raft_call s o) as [ro|] eqn:Ero; cbn [log_after] in *; [|left; exact (placed_quiet _ _ _ _ _ _ _ _ _ _ _ HI El H)].
    pose proof (vw_raft _ _ _ _ _ _ _ _ _ _ _ Hv) as Hr. rewrite Ero in Hr. destruct Hr as (a & Hr & _).
    assert (Hh : heard g ro).
    { destruct o as [tx by_ x ok rnd b|no an|o|ok|c|c]; cbn [Group.raft_call] in Ero; try discriminate.
      - destruct (_ && _)%bool in Ero; [|discriminate]. injection Ero as <-. exact I.
      - destruct o; try discriminate; injection Ero as <-; cbn [heard copre] in *; auto. destruct Hp as [to [H1 _]]. eauto.
      - injection Ero as <-. exact I. }
    destruct (placed_call g k s A ro s' a _ _ _ _ i e HI Hun El Hh Hr HI' H) as [H1|(H1 & H2 & ok & rnd & ->)]; [auto|]. right.
    split; [assumption|]. split; [assumption|]. split; [discriminate|].
    destruct o as [tx by_ x ok1 rnd1 b|no an|o|ok1|c|c]; cbn [Group.raft_call] in Ero; try discriminate.
    - destruct (_ && _)%bool in Ero; [|discriminate]. injection Ero as -> -> ->. eauto 6.
    - destruct o; try discriminate. contradiction. }
  assert (Hfw : forall j, sent_on g' j -> sent_on g j \/ (j = length (g_fwd g) /\ raft_call s o = None /\ exists tx by_ ok rnd b, o = CWrite tx by_ X ok rnd b)).
  { intros j H. apply sent_old in H as [H|(H1 & no & H2)]; [auto|]. right.
    destruct o as [tx by_ x ok rnd b| | | | |]; try (destruct (j - length (g_fwd g))%nat; discriminate). unfold forwarded in H2.
    destruct (Nat.ltb _ _) eqn:Elt; [|destruct (j - length (g_fwd g))%nat; discriminate]. apply Nat.ltb_lt in Elt.
    destruct (j - length (g_fwd g))%nat as [|m] eqn:Ej; [|destruct m; discriminate]. cbn in H2. injection H2 as _ ->. split; [lia|]. split; [|eauto 6].
    destruct (wt_call _ _ _ _ _ _ _ _ _ _ _ (write_wrote sz hmac D E apply respond min_voting _ _ _ _ _ _ _ _ _ Ec)) as [H3|H3]; [assumption|]. rewrite H3 in Elt. lia. }
  assert (Hold : forall q a, saw g' k0 (Said q a) -> saw g k0 (Said q a) \/ (k = k0 /\ In (q, a) (r_said r))).
  { intros q a H. apply saw_move in H as [H|[-> H]]; [auto|]. right. split; [reflexivity|]. now apply seen_in_said in H. }
  assert (Hsw : forall k1 x, saw g k1 x -> saw g' k1 x) by (intros; apply saw_move; auto).
  constructor.
  - intros i1 e1 i2 e2 H1 H2. destruct (Hpl _ _ H1) as [P1|(P1 & P2 & _ & P3)], (Hpl _ _ H2) as [R1|(R1 & R2 & _ & R3)].
    + exact (on_one _ _ HO _ _ _ _ P1 R1).
    + exfalso. destruct (Hnow R3) as (_ & _ & _ & _ & _ & Z). exact (Z _ _ P1).
    + exfalso. destruct (Hnow P3) as (_ & _ & _ & _ & _ & Z). exact (Z _ _ R1).
    + subst i1 i2. split; [reflexivity|congruence].
  - intros j1 j2 H1 H2. destruct (Hfw _ H1) as [P1|(P1 & _ & P3)], (Hfw _ H2) as [R1|(R1 & _ & R3)].
    + exact (on_fwd _ _ HO _ _ P1 R1).
    + exfalso. destruct (Hnow R3) as (_ & _ & _ & _ & Z & _). exact (Z _ P1).
    + exfalso. destruct (Hnow P3) as (_ & _ & _ & _ & Z & _). exact (Z _ R1).
    + congruence.
  - intros i e H. destruct (Hpl _ _ H) as [P1|(P1 & P2 & P4 & P3)].
    + destruct (on_placed _ _ HO i e P1) as [H1 H2]. split; [auto|]. intros j Hj. destruct (Hfw j Hj) as [Hj'|(_ & _ & R3)]; [auto|].
      exfalso. destruct (Hnow R3) as (_ & _ & _ & _ & _ & Z). exact (Z _ _ P1).
    + destruct (Hnow P3) as (_ & Z1 & _ & _ & Z & _). split; [assumption|]. intros j Hj. exfalso.
      destruct (Hfw j Hj) as [Hj'|(_ & R2 & R3)]; [exact (Z _ Hj')|contradiction].
  - intros a _ H. destruct (Hold _ _ H) as [H1|[-> H1]].
    + destruct (on_asked _ _ HO a Hnr H1) as [x Hx]. exists x. auto.
    + destruct (said_from sz hmac D E apply respond min_voting _ _ _ _ _ _ Ec H1) as
        [(tx & by_ & x & ok & rnd & b & -> & Hq & _)|[(no & an & -> & Hf & _)|(ok & i & e & w & -> & Ht & Hw & Hq & _)]].
      * exists x. apply saw_move. right. split; [reflexivity|]. apply Hask. exists tx, by_, ok, rnd, b. auto.
      * destruct (q_cfwd _ _ _ _ _ _ _ _ _ _ g HI k0 s A q0 Hnr El Hf) as [x Hx]. exists x. auto.
      * destruct (q_watch _ _ _ _ _ _ _ _ _ _ g HI k0 s A w Hnr El Hw) as (x & Hx & _). rewrite Hq in Hx. exists x. auto.
  - intros code _ H Hr Ha. destruct (Hold _ _ H) as [H1|[-> H1]].
    + (* an old answer *)
      destruct (on_asked _ _ HO _ Hnr H1) as [x Hx].
      assert (HaX : saw g k0 (Asked q0 X)).
      { destruct (q_uniq _ _ _ _ _ _ _ _ _ _ g' HI' k0 q0 x q0 X Hnr (Hsw _ _ Hx) Ha eq_refl) as [_ <-]. exact Hx. }
      destruct (on_said _ _ HO code Hnr H1 Hr HaX) as [[N1 N2]|Hov]; [|right; now apply overruled_move]. left. split.
      * intros j Hj. destruct (Hfw j Hj) as [Hj'|(_ & _ & R3)]; [exact (N1 _ Hj')|]. destruct (Hnow R3) as (_ & _ & Z & _). exact (Z _ Hx).
      * intros i e He. destruct (Hpl _ _ He) as [Hj'|(_ & _ & _ & R3)]; [exact (N2 _ _ Hj')|]. destruct (Hnow R3) as (_ & _ & Z & _). exact (Z _ Hx).
    + destruct (said_from sz hmac D E apply respond min_voting _ _ _ _ _ _ Ec H1) as
        [(tx & by_ & x & ok & rnd & b & -> & Hq & Hk)|[(no & an & -> & Hf & Hk)|(ok & i & e & w & -> & Ht & Hw & Hq & Hk)]].
      * left. destruct (Hk code eq_refl Hr) as [K1 K2].
        assert (x = X) as ->.
        { assert (Hs : saw g' k0 (Asked q0 x)) by (apply saw_move; right; split; [reflexivity|]; apply Hask; exists tx, by_, ok, rnd, b; auto).
          now destruct (q_uniq _ _ _ _ _ _ _ _ _ _ g' HI' k0 q0 x q0 X Hnr Hs Ha eq_refl). }
        destruct (Hnow ltac:(eauto 6)) as (_ & _ & _ & _ & Z1 & Z2). split.
        -- intros j Hj. apply sent_old in Hj as [Hj|(_ & no & Hj)]; [exact (Z1 _ Hj)|]. unfold forwarded in Hj. rewrite K1, Nat.ltb_irrefl in Hj.
           destruct (j - length (g_fwd g))%nat; discriminate.
        -- intros i e He. destruct (Hpl _ _ He) as [He'|(_ & _ & He' & _)]; [exact (Z2 _ _ He')|contradiction].
      * exfalso. destruct (Hk code eq_refl Hr) as (c & -> & K). exact (Hc K).
      * right. destruct (Hk code eq_refl Hr) as [K1 K2].
        destruct (q_watch _ _ _ _ _ _ _ _ _ _ g HI k0 s A w Hnr El Hw) as (x & Hx & k2 & t & B & Hb1 & Hb2). rewrite Hq in Hx.
        destruct (q_uniq _ _ _ _ _ _ _ _ _ _ g' HI' k0 q0 x q0 X Hnr (Hsw _ _ Hx) Ha eq_refl) as [_ ->].
        assert (Htk : saw g' k0 (Took i e (snd (run_one apply (c_db s) e)))) by (apply saw_move; right; split; [reflexivity|]; apply seen_in_took; auto).
        destruct (q_took _ _ _ _ _ _ _ _ _ _ g' HI' _ _ _ _ Htk) as (_ & _ & _ & Hi & _).
        exists i, (Entry (lc_term (w_at w)) X (lc_hash (w_at w))), e, (snd (run_one apply (c_db s) e)). split; [|split; [assumption|exact K2]].
        apply placed_move. split; [assumption|]. split; [reflexivity|]. exists k2, t, B. split; [assumption|]. rewrite <- K1. exact Hb2.
  - intros to no code H. unfold g' in H. cbn [Group.move Group.g_ans] in H. rewrite app_nil_r in H. exact (on_ans _ _ HO _ _ _ H).
Qed.
Lemma once_later done ev g : once done g -> once (done ++ [ev]) g.
Proof.
  intros [O1 O2 O3 O4 O5 O6]. constructor; auto. intros i e H. destruct (O3 i e H) as [H1 H2]. split; [assumption|]. intros j Hj.
  destruct (H2 j Hj) as (ev' & H3 & H4). exists ev'. split; [apply in_or_app; auto|assumption].
Qed.
(* a step that only adds an error to the answers *)
Lemma quiet_once done g k s A from no code : gall g -> lookup k (g_now g) = Some (s, A) -> ~ retry_code code -> once done g ->
  once done (move k s A [] [] [(from, (no, FError code))] [] g).
Proof.
  intros HI El Hc [O1 O2 O3 O4 O5 O6]. set (g' := move k s A [] [] _ [] g).
  assert (Hpl : forall i e, placed g' i e -> placed g i e) by (intros i e H; exact (placed_quiet _ _ _ _ _ _ _ _ _ _ _ HI El H)).
  assert (Hse : forall j, sent_on g' j -> sent_on g j).
  { intros j H. apply sent_old in H as [H|(_ & no' & H)]; [assumption|]. destruct (j - length (g_fwd g))%nat; discriminate. }
  assert (Hsw : forall k1 x, saw g' k1 x <-> saw g k1 x) by (intros k1 x; unfold g'; rewrite saw_move; cbn; tauto).
  constructor.
  - eauto.
  - eauto.
  - intros i e H. destruct (O3 i e (Hpl _ _ H)) as [H1 H2]. split; [now apply Hsw|]. auto.
  - intros a Hn H. apply Hsw in H. destruct (O4 a Hn H) as [x Hx]. exists x. now apply Hsw.
  - intros cd Hn H Hr Ha. apply Hsw in H. apply Hsw in Ha. destruct (O5 cd Hn H Hr Ha) as [[N1 N2]|H1]; [left; split; [intros j Hj; exact (N1 _ (Hse _ Hj))|intros i e He; exact (N2 _ _ (Hpl _ _ He))]|right; now apply overruled_move].
  - intros to no' cd H. unfold g' in H. cbn [Group.move Group.g_ans] in H. apply in_app_or in H as [H|[H|[]]]; [eauto|]. injection H as _ _ <-. assumption.
Qed.
Lemma serve_once done g k j attested ok rnd : gall g -> unclashed (map strip (g_past g)) ->
  gall (gstep g (GServe k j attested ok rnd)) -> incl (g_seen (gstep g (GServe k j attested ok rnd))) F ->
  (forall ev, In ev done -> serves j ev = false) -> once done g -> once (done ++ [GServe k j attested ok rnd]) (gstep g (GServe k j attested ok rnd)).
Proof.
  intros HI Hun HI' HF Hd HO. cbn [Group.gstep] in *.
  destruct (nth_error (g_fwd g) j) as [[from [no x]]|] eqn:Ej; [|now apply once_later]. unfold run_serve in *.
  destruct (lookup k (g_now g)) as [[s A]|] eqn:El; [|now apply once_later].
  destruct (serve D min_voting attested ok rnd x s) as [code|o] eqn:Es.
  { apply once_later. apply quiet_once; auto. unfold serve in Es.
    assert (Hn : forall c, c = E_RaftState \/ c = E_NotEnoughVoting \/ c = E_NoQuorumTimestamp -> ~ retry_code c).
    { intros c [-> | [-> | ->]] [H|[H|H]]; discriminate H. }
    apply Hn. destruct (negb _) in Es; [injection Es as <-; auto|]. destruct (_ <? _) in Es; [injection Es as <-; auto|]. destruct attested; [discriminate|].
    injection Es as <-; auto. }
  assert (o = ORequest ok rnd x) as -> by exact (serve_is D min_voting _ _ _ _ _ _ Es).
  destruct (rstep sz hmac (c_node s) (ORequest ok rnd x)) as [[n' a]|] eqn:Er; [|now apply once_later]. cbv zeta in *.
  set (an := match a_loc a with Some (l, RE_OK) => FLocated l | Some (_, er) => FError (rerr_code er) | None => FError 0 end) in *.
  set (g' := move k (set_node D n' s) _ _ _ _ _ g) in *.
  assert (Hpl : forall i e, placed g' i e -> placed g i e \/ (i = nxt (n_log (c_node s)) /\ nth_entry (regrow A (n_log n')) i = Some e /\ x = X)).
  { intros i e H. destruct (placed_call g k s A (ORequest ok rnd x) (set_node D n' s) a _ _ _ _ i e HI Hun El I Er HI' H) as [H1|(H1 & H2 & ok' & rnd' & H3)]; [auto|].
    right. injection H3 as _ _ ->. auto. }
  assert (Hfirst : x = X -> forall i e, ~ placed g i e).
  { intros -> i e H. destruct (on_placed _ _ HO i e H) as [_ H2]. destruct (H2 j) as (ev & H3 & H4); [exists from, no; assumption|]. rewrite (Hd _ H3) in H4. discriminate. }
  assert (Hse : forall j', sent_on g' j' -> sent_on g j').
  { intros j' H. apply sent_old in H as [H|(_ & no' & H)]; [assumption|]. destruct (j' - length (g_fwd g))%nat; discriminate. }
  assert (Hsw : forall k1 y, saw g' k1 y <-> saw g k1 y) by (intros k1 y; unfold g'; rewrite saw_move; cbn; tauto).
  assert (Hjs : x = X -> sent_on g j) by (intros ->; exists from, no; assumption).
  constructor.
  - intros i1 e1 i2 e2 H1 H2. destruct (Hpl _ _ H1) as [P1|(P1 & P2 & P3)], (Hpl _ _ H2) as [R1|(R1 & R2 & R3)].
    + exact (on_one _ _ HO _ _ _ _ P1 R1).
    + exfalso. exact (Hfirst R3 _ _ P1).
    + exfalso. exact (Hfirst P3 _ _ R1).
    + subst i1 i2. split; [reflexivity|congruence].
  - intros j1 j2 H1 H2. exact (on_fwd _ _ HO _ _ (Hse _ H1) (Hse _ H2)).
  - intros i e H. destruct (Hpl _ _ H) as [P1|(P1 & P2 & P3)].
    + destruct (on_placed _ _ HO i e P1) as [H1 H2]. split; [now apply Hsw|]. intros j' Hj'. destruct (H2 j' (Hse _ Hj')) as (ev & H3 & H4). exists ev.
      split; [apply in_or_app; auto|assumption].
    + split.
      * apply Hsw. rewrite P3 in Ej. apply nth_error_In in Ej. destruct (q_fwd _ _ _ _ _ _ _ _ _ _ g HI _ _ _ Ej) as (q & _ & H1).
        assert (H2 : In (from, Asked q X) F) by (apply HF; apply Hsw; exact H1). destruct (Hone _ _ H2) as [-> ->]. exact H1.
      * intros j' Hj'. pose proof (on_fwd _ _ HO _ _ (Hse _ Hj') (Hjs P3)) as ->. exists (GServe k j attested ok rnd). split; [apply in_or_app; right; now left|].
        cbn. apply Nat.eqb_refl.
  - intros a1 Hn H. apply Hsw in H. destruct (on_asked _ _ HO a1 Hn H) as [y Hy]. exists y. now apply Hsw.
  - intros cd Hn H Hr Ha. apply Hsw in H. apply Hsw in Ha. destruct (on_said _ _ HO cd Hn H Hr Ha) as [[N1 N2]|H1]; [|right; now apply overruled_move].
    left. split; [intros j' Hj'; exact (N1 _ (Hse _ Hj'))|]. intros i e He. destruct (Hpl _ _ He) as [He'|(_ & _ & He')]; [exact (N2 _ _ He')|exact (N1 _ (Hjs He'))].
  - intros to no' cd H. unfold g' in H. cbn [Group.move Group.g_ans] in H. apply in_app_or in H as [H|[H|[]]]; [exact (on_ans _ _ HO _ _ _ H)|].
    injection H as _ _ H. unfold an in H. destruct (a_loc a) as [[l er]|].
    + assert (cd = rerr_code er) as -> by (destruct er; congruence). apply rerr_no_retry.
    + injection H as <-. intros [H|[H|H]]; discriminate H.
Qed.
Lemma change_once done g k attested ok rnd gr : gall g -> unclashed (map strip (g_past g)) ->
  gall (run_change sz hmac D E k attested ok rnd gr g) -> once done g -> once done (run_change sz hmac D E k attested ok rnd gr g).
Proof.
  intros HI Hun HI' HO. unfold run_change in *. destruct (lookup k (g_now g)) as [[s A]|] eqn:El; [|assumption]. destruct (_ && _)%bool; [|assumption].
  destruct (rstep sz hmac (c_node s) (ORequest ok rnd (IMember gr))) as [[n' a]|] eqn:Er; [|assumption].
  set (g' := move k (set_node D n' s) _ _ _ _ _ g) in *.
  assert (Hpl : forall i e, placed g' i e -> placed g i e).
  { intros i e H. destruct (placed_call g k s A (ORequest ok rnd (IMember gr)) (set_node D n' s) a _ _ _ _ i e HI Hun El I Er HI' H) as [H1|(_ & _ & ok' & rnd' & H3)]; [auto|discriminate]. }
  assert (Hse : forall j', sent_on g' j' -> sent_on g j').
  { intros j' H. apply sent_old in H as [H|(_ & no' & H)]; [assumption|]. destruct (j' - length (g_fwd g))%nat; discriminate. }
  assert (Hsw : forall k1 y, saw g' k1 y <-> saw g k1 y) by (intros k1 y; unfold g'; rewrite saw_move; cbn; tauto).
  destruct HO as [O1 O2 O3 O4 O5 O6]. constructor.
  - intros i1 e1 i2 e2 H1 H2. exact (O1 _ _ _ _ (Hpl _ _ H1) (Hpl _ _ H2)).
  - intros j1 j2 H1 H2. exact (O2 _ _ (Hse _ H1) (Hse _ H2)).
  - intros i e H. destruct (O3 i e (Hpl _ _ H)) as [H1 H2]. split; [now apply Hsw|]. intros j Hj. exact (H2 j (Hse _ Hj)).
  - intros a1 Hn H. apply Hsw in H. destruct (O4 a1 Hn H) as [x Hx]. exists x. now apply Hsw.
  - intros cd Hn H Hr Ha. apply Hsw in H. apply Hsw in Ha. destruct (O5 cd Hn H Hr Ha) as [[N1 N2]|H1]; [left; split; [intros j Hj; exact (N1 _ (Hse _ Hj))|intros i e He; exact (N2 _ _ (Hpl _ _ He))]|right; now apply overruled_move].
  - intros to no' cd H. unfold g' in H. cbn [Group.move Group.g_ans] in H. rewrite app_nil_r in H. eauto.
Qed.
Lemma once_step done g ev : gall g -> unclashed (map strip (g_past g)) -> change_in Fm ev -> incl (g_seen (gstep g ev)) F -> ~ In k0 (g_rolled (gstep g ev)) ->
  (forall j, (length (filter (serves j) (done ++ [ev])) <= 1)%nat) -> once done g -> once (done ++ [ev]) (gstep g ev).
Proof.
  intros HI Hun Hce HF Hnr Hd HO. assert (HI' : gall (gstep g ev)) by (eapply (gstep_inv sz hmac D E apply respond min_voting M); eassumption).
  assert (Hrun : forall k o, gstep g ev = run_core sz hmac D E apply respond min_voting k o g -> copre D E Fm g k o ->
    match o with CAnswer _ (FError code) => ~ retry_code code | _ => True end -> once (done ++ [ev]) (gstep g ev)).
  { intros k o Eg Hp Hc. apply once_later. rewrite Eg in *. apply core_once; auto. intros Hx. apply Hnr.
    destruct (run_core_move sz hmac D E apply respond min_voting k o g) as [->|(s & A & s' & r & _ & _ & ->)]; exact Hx. }
  assert (Hwr : forall k tx by_ x ok rnd b, gstep g ev = run_core sz hmac D E apply respond min_voting k (CWrite tx by_ x ok rnd b) g -> once (done ++ [ev]) (gstep g ev)).
  { intros k tx by_ x ok rnd b Eg. destruct (run_core_move sz hmac D E apply respond min_voting k (CWrite tx by_ x ok rnd b) g) as [Y|(s & A & s' & r & _ & Ec & Y)].
    - rewrite Eg, Y. now apply once_later.
    - apply (Hrun k (CWrite tx by_ x ok rnd b)); auto. cbn [copre]. apply (HFm k (Req (c_count s + 1) tx by_)). apply HF. rewrite Eg, Y.
      apply saw_move. right. split; [reflexivity|]. apply seen_in_asked. exists tx, by_, ok, rnd, b. auto. }
  destruct ev as [k o|k j ok1 ok2 rnd|k j attested ok rnd|k j|k attested ok rnd gr|k j].
  - destruct o as [tx by_ x ok rnd b|no an|o|ok|c|c]; try (eapply Hrun; [reflexivity|exact I|exact I]).
    + eapply Hwr. reflexivity.
    + destruct an as [code| |]; try (now apply once_later). cbn [Group.gstep] in *. destruct (_ || _)%bool eqn:Eo; [|now apply once_later].
      eapply Hrun; [reflexivity|exact I|]. intros [H|[H|H]]; subst code; discriminate Eo.
    + destruct o; try (now apply once_later); eapply Hrun; try reflexivity; exact I.
  - cbn [Group.gstep] in *. destruct (nth_error (g_soup g) j) as [[from [to m]]|] eqn:Ej; [|now apply once_later].
    destruct (match to with Some p => beq p k | None => _ end) eqn:Ed; [|now apply once_later]. eapply Hrun; [reflexivity| |exact I]. cbn [copre]. exists to.
    split; [eapply nth_error_In; eassumption|]. intros p ->. now apply beq_eq.
  - apply serve_once; auto. intros ev Hin. destruct (serves j ev) eqn:Ev; [|reflexivity]. exfalso. specialize (Hd j). rewrite filter_app, app_length in Hd.
    cbn [filter serves] in Hd. rewrite Nat.eqb_refl in Hd. cbn [length] in Hd.
    assert (Hf : In ev (filter (serves j) done)) by (apply filter_In; auto). destruct (filter (serves j) done); [contradiction|]. cbn [length] in Hd. lia.
  - cbn [Group.gstep] in *. destruct (nth_error (g_ans g) j) as [[to [no a]]|] eqn:Ej; [|now apply once_later]. destruct (beq to k) eqn:Eb; [|now apply once_later].
    apply beq_eq in Eb. subst to. apply nth_error_In in Ej. eapply Hrun; [reflexivity| |]; destruct a as [code|l|]; cbn [copre]; auto. exact (on_ans _ _ HO _ _ _ Ej).
  - cbn [Group.gstep] in *. apply once_later. now apply change_once.
  - cbn [Group.gstep] in *. destruct (nth_error (g_past g) j) as [[k' y]|]; [|now apply once_later]. destruct (beq k' k) eqn:Eb; [|now apply once_later].
    assert (Hr : forall k1, ~ In k1 (pins k (g_rolled g)) -> ~ In k1 (g_rolled g)) by (intros k1 H; rewrite pins_In in H; tauto).
    apply once_later. destruct HO as [O1 O2 O3 O4 O5 O6]. constructor; auto. 
    + intros a Hn. exact (O4 a (Hr _ Hn)).
    + intros cd Hn. exact (O5 cd (Hr _ Hn)).
Qed.
Lemma rolled_grows g ev : incl (g_rolled g) (g_rolled (gstep g ev)).
Proof.
  assert (Hc : forall k o, g_rolled (run_core sz hmac D E apply respond min_voting k o g) = g_rolled g).
  { intros k o. destruct (run_core_move sz hmac D E apply respond min_voting k o g) as [->|(s & A & s' & r & _ & _ & ->)]; reflexivity. }
  intros y Hy. destruct ev as [k o|k j ok1 ok2 rnd|k j attested ok rnd|k j|k attested ok rnd gr|k j]; cbn [Group.gstep].
  - destruct o as [| no an | o | | |]; try (rewrite Hc); auto; [destruct an; auto; destruct (_ || _)%bool|destruct o]; try (rewrite Hc); auto.
  - destruct (nth_error _ _) as [[from [to m]]|]; auto. destruct (match to with Some p => _ | None => _ end); try (rewrite Hc); auto.
  - destruct (nth_error _ _) as [[from [no x]]|]; auto. unfold run_serve. destruct (lookup k (g_now g)) as [[s A]|]; auto.
    destruct (serve _ _ _ _ _ _ _); auto. destruct (rstep _ _ _ _) as [[n' a]|]; auto.
  - destruct (nth_error _ _) as [[to [no a]]|]; auto. destruct (beq to k); try (rewrite Hc); auto.
  - unfold run_change. destruct (lookup k (g_now g)) as [[s A]|]; auto. destruct (_ && _)%bool; auto. destruct (rstep _ _ _ _) as [[n' a]|]; auto.
  - destruct (nth_error _ _) as [[k' x]|]; auto. destruct (beq k' k); auto. cbn [Group.g_rolled]. apply pins_In. auto.
Qed.
Lemma rolled_run evs : forall g, incl (g_rolled g) (g_rolled (grun g evs)).
Proof.
  induction evs as [|ev evs IH]; intros g; cbn [Group.grun fold_left]; [apply incl_refl|]. eapply incl_tran; [apply rolled_grows|apply IH].
Qed.
Lemma once_run evs : forall done g, gall g -> Forall (change_in Fm) evs -> gno_clash (grun g evs) -> incl (g_seen (grun g evs)) F -> ~ In k0 (g_rolled (grun g evs)) ->
  (forall j, (length (filter (serves j) (done ++ evs)) <= 1)%nat) -> once done g -> once (done ++ evs) (grun g evs).
Proof.
  induction evs as [|ev evs IH]; intros done g HI Hce Hun HF Hnr Hd HO; cbn [Group.grun fold_left] in *; [now rewrite app_nil_r|]. inversion Hce as [|? ? Hc1 Hc2]; subst.
  destruct (grun_grows sz hmac D E apply respond min_voting evs (gstep g ev)) as [G1 G2]. destruct (gstep_grows sz hmac D E apply respond min_voting g ev) as [G3 G4].
  assert (Hun0 : unclashed (map strip (g_past g))).
  { intros k1 n1 A1 k2 n2 A2 H1 H2. apply in_strip in H1 as [s1 [_ H1]]. apply in_strip in H2 as [s2 [_ H2]].
    apply (Hun k1 s1 A1 k2 s2 A2); apply G1, G3; assumption. }
  assert (HF0 : incl (g_seen (gstep g ev)) F) by (eapply incl_tran; eassumption).
  replace (done ++ ev :: evs) with ((done ++ [ev]) ++ evs) in * by (now rewrite <- app_assoc). apply IH; auto.
  - eapply (gstep_inv sz hmac D E apply respond min_voting M); eassumption.
  - apply once_step; auto.
    + intros H. apply Hnr. exact (rolled_run evs _ _ H).
    + intros j. specialize (Hd j). rewrite filter_app, app_length in Hd. lia.
Qed.
Lemma once_start gid xs g : gall g -> gstart sz hmac D E gid M sm L0 db0 xs = Ret g ->
  (forall k s A i e, gwas g k s A -> llen L0 < i -> nth_entry A i = Some e -> e_inner e <> X) -> once [] g.
Proof.
  intros HI Eg Hx. unfold gstart in Eg. apply bind_inv in Eg as [p [_ Eg]].
  assert (Hs : forall k1 y, ~ saw g k1 y) by (injection Eg as <-; intros k1 y []).
  assert (Hp : forall i e, ~ placed g i e) by (intros i e (H1 & H2 & k & s & A & H3 & H4); exact (Hx _ _ _ _ _ H3 H1 H4 H2)).
  assert (Hf : forall j, ~ sent_on g j) by (injection Eg as <-; intros j (k & no & H); cbn in H; destruct j; discriminate).
  assert (Ha : forall y, ~ In y (g_ans g)) by (injection Eg as <-; intros y []).
  constructor; try (intros; exfalso; (eapply Hp + eapply Hs + eapply Hf + eapply Ha); eassumption).
Qed.
End Group.

Section End_.
Variable sz : sizes.
Variable hmac : bytes -> bytes -> bytes.
Context {D E : Type}.
Variable apply : D -> bytes -> D * option E.
Variable respond : N -> E -> option bytes.
Variable min_voting : N.
Variable M : members.
Variable sm : N.
Variable L0 : list entry.
Variable db0 : D.
Lemma reached_once evs g k q d : group_reached sz hmac apply respond min_voting M sm L0 db0 evs g -> gchanges_overlap M sm evs -> gno_clash g ->
  served_once evs -> asked_once g k q (IData d) -> ~ In k (g_rolled D E g) -> once D E L0 k q d evs g.
Proof.
  intros Hg Hf Hun Hs [Ha Hone] Hnr. destruct Hg as (gid & xs & g0 & (H1 & H2 & H3 & H4 & H5 & H6 & H7) & Eg & ->).
  set (F := g_seen D E (grun sz hmac D E apply respond min_voting g0 evs)) in *.
  assert (Hs0 : g_seen D E g0 = []) by (unfold gstart in Eg; apply bind_inv in Eg as [p [E1 Eg]]; injection Eg as <-; reflexivity).
  destruct Hf as (F1 & HF1 & Hov & Hask). destruct (changes_parts M sm F1 evs H1 HF1 Hov Hask) as (HM & Hw & Ho & Hce & Hwr).
  assert (HFm : forall k q x, In (k, Asked E q x) F -> within (wfF F1) x) by (eapply asked_in; eassumption).
  assert (Hall : forall F0, gall hmac D E apply respond sm L0 db0 (wfF F1) F0 g0) by (intros F0; eapply (gstart_inv sz hmac D E apply respond M); eassumption).
  apply (once_run sz hmac D E apply respond min_voting M sm L0 db0 (wfF F1) HM Hw F HFm k q d Hone evs [] g0); auto.
  - apply incl_refl.
  - eapply once_start; [exact (Hall [])|exact Eg|]. intros k1 s A i e Hwas Hi He.
    destruct (gi_past _ _ _ _ _ _ (q_raft _ _ _ _ _ _ _ _ _ _ _ (Hall [])) k1 _ A (strip_in _ _ _ _ Hwas)) as [HR _].
    destruct (ri_k _ _ _ _ _ _ _ _ _ _ _ HR) as [_ Hok]. destruct (Hok i e Hi He) as [_ [Z|[[gr Z]|(k2 & q2 & [])]]]; rewrite Z; discriminate.
Qed.
Lemma took_placed evs g d k' i e eff : group_reached sz hmac apply respond min_voting M sm L0 db0 evs g -> gchanges_overlap M sm evs -> gno_clash g ->
  saw g k' (Took E i e eff) -> e_inner e = IData d -> placed D E L0 d g i e.
Proof.
  intros Hg Hf Hun Ht He. destruct (reached_all _ _ _ _ _ _ _ _ _ _ _ Hg Hf Hun) as (_ & _ & Fm & _ & HI).
  destruct (q_took _ _ _ _ _ _ _ _ _ _ _ HI _ _ _ _ Ht) as (s & A & H1 & H2 & _ & H4 & _). split; [assumption|]. split; [assumption|]. exists k', s, A. auto.
Qed.
Lemma retry_not_run evs g k q d code k' i e eff : group_reached sz hmac apply respond min_voting M sm L0 db0 evs g -> gchanges_overlap M sm evs -> gno_clash g ->
  psize (g_rolled D E g) <= sm -> served_once evs -> asked_once g k q (IData d) -> ~ In k (g_rolled D E g) ->
  saw g k (Said E q (SError code)) -> retry_code code -> saw g k' (Took E i e eff) -> e_inner e <> IData d.
Proof.
  intros Hg Hf Hun Hro Hs Ha Hnr Hsaid Hr Ht He. pose proof (reached_once _ _ _ _ _ Hg Hf Hun Hs Ha Hnr) as HO.
  pose proof (took_placed _ _ _ _ _ _ _ Hg Hf Hun Ht He) as Hp.
  destruct (on_said _ _ _ _ _ _ _ _ HO code Hnr Hsaid Hr (proj1 Ha)) as [[_ N]|(i0 & e0 & e1 & eff1 & P1 & P2 & P3)]; [exact (N _ _ Hp)|].
  destruct (on_one _ _ _ _ _ _ _ _ HO _ _ _ _ Hp P1) as [-> ->].
  destruct (one_database _ _ _ _ _ _ _ _ _ _ _ Hg Hf Hun Hro) as (rest & H & _).
  destruct (H _ _ _ _ Ht) as (p1 & X1 & Y1 & _). destruct (H _ _ _ _ P2) as (p2 & X2 & Y2 & _). assert (p1 = p2) as <- by lia. congruence.
Qed.
Lemma run_at_most_once evs g k q d k1 i1 e1 eff1 k2 i2 e2 eff2 : group_reached sz hmac apply respond min_voting M sm L0 db0 evs g -> gchanges_overlap M sm evs -> gno_clash g ->
  served_once evs -> asked_once g k q (IData d) -> ~ In k (g_rolled D E g) ->
  saw g k1 (Took E i1 e1 eff1) -> saw g k2 (Took E i2 e2 eff2) -> e_inner e1 = IData d -> e_inner e2 = IData d -> i1 = i2.
Proof.
  intros Hg Hf Hun Hs Ha Hnr T1 T2 E1 E2. pose proof (reached_once _ _ _ _ _ Hg Hf Hun Hs Ha Hnr) as HO.
  pose proof (took_placed _ _ _ _ _ _ _ Hg Hf Hun T1 E1) as P1. pose proof (took_placed _ _ _ _ _ _ _ Hg Hf Hun T2 E2) as P2.
  exact (proj1 (on_one _ _ _ _ _ _ _ _ HO _ _ _ _ P1 P2)).
Qed.
End End_.
