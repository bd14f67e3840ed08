(* Proofs about a group of whole replicas. *)
From Verif Require Import CoreTxSpec CoreTxProofs Group GroupSpec MembershipSpec MembershipProofs RaftChain RaftNode RaftRun
  RaftNetSpec RaftNetProofs RaftMoveSpec RaftMoveProofs UtilProofs.

(* --- one step of a core ----------------------------------------------------- *)
Section View.
Variable sz : sizes.
Variable hmac : bytes -> bytes -> bytes.
Variables D E : Type.
Variable apply : D -> bytes -> D * option E.
Variable respond : N -> E -> option bytes.
Variable min_voting : N.
Notation core := (core D).
Notation cstep := (cstep sz hmac D E apply respond min_voting).
Notation c_node := (c_node D). Notation c_db := (c_db D). Notation c_watch := (c_watch D).
Notation c_fwd := (c_fwd D). Notation c_count := (c_count D). Notation c_part := (c_part D). Notation c_open := (c_open D).
Notation raft_call := (raft_call D min_voting).
Notation effect := (effect D E apply).
Notation forwarded := (forwarded D).

Record view (s : core) (o : cop) (s' : core) (r : cres) : Prop := MkView {
  vw_raft : match raft_call s o with
            | None => c_node s' = c_node s /\ r_taken r = None
            | Some ro => exists a, rstep sz hmac (c_node s) ro = Ret (c_node s', a) /\ r_taken r = a_taken a
            end;
  vw_db : c_db s' = match r_taken r with Some (i, e) => fst (run_one apply (c_db s) e) | None => c_db s end;
  vw_count : c_count s' = c_count s + match o with CWrite _ _ _ _ _ _ => 1 | _ => 0 end;
  vw_fwd : forall q, In q (c_fwd s') -> In q (c_fwd s) \/
    exists tx by_ x ok rnd b, o = CWrite tx by_ x ok rnd b /\ q = Req (c_count s + 1) tx by_;
  vw_watch : forall w, In w (c_watch s') -> In w (c_watch s) \/
    (exists tx by_ x ok rnd b a, o = CWrite tx by_ x ok rnd b /\ w_req w = Req (c_count s + 1) tx by_ /\
       raft_call s o = Some (ORequest ok rnd x) /\ rstep sz hmac (c_node s) (ORequest ok rnd x) = Ret (c_node s', a) /\
       a_loc a = Some (w_at w, RE_OK)) \/
    (o = CAnswer (q_no (w_req w)) (FLocated (w_at w)) /\ In (w_req w) (c_fwd s));
  vw_said : forall q a, In (q, a) (r_said r) -> success a -> exists i e w,
    r_taken r = Some (i, e) /\ In w (c_watch s) /\ w_req w = q /\ matches i e (w_at w) /\
    match q_by q with
    | AHost => a = SDone
    | AClient c => exists ef b, effect (c_db s) e = Some ef /\ respond c ef = Some b /\ a = SData b
    end;
  vw_forw : forall no x, In (no, x) (forwarded s o s') -> no = c_count s + 1 /\
    exists tx by_ ok rnd b, o = CWrite tx by_ x ok rnd b
}.
Lemma not_taken n o n' a : o <> OTake -> rstep sz hmac n o = Ret (n', a) -> a_taken a = None.
Proof.
  intros Ho H. destruct o; cbn [rstep] in H; try congruence.
  - apply bind_inv in H as [y [_ H]]. unfold sent in H. injection H as <- <-. reflexivity.
  - apply bind_inv in H as [y [_ H]]. unfold sent in H. injection H as <- <-. reflexivity.
  - apply bind_inv in H as [y [_ H]]. unfold sent in H. injection H as <- <-. reflexivity.
  - unfold sent in H. injection H as <- <-. reflexivity.
  - apply bind_inv in H as [y [_ H]]. unfold sent in H. injection H as <- <-. reflexivity.
  - apply bind_inv in H as [[y z] [_ H]]. unfold sent in H. injection H as <- <-. reflexivity.
Qed.
Lemma forwarded_in s o s' no x : In (no, x) (forwarded s o s') -> no = c_count s + 1 /\
    exists tx by_ ok rnd b, o = CWrite tx by_ x ok rnd b.
Proof.
  unfold Group.forwarded. destruct o as [tx by_ x0 ok rnd b| | | | | ]; try contradiction. destruct (Nat.ltb _ _); [|contradiction].
  intros [X|[]]. injection X as <- <-. split; [reflexivity|]. eauto 6.
Qed.
(* a refused request *)
Lemma view_refuse code n q s o s' r tx by_ x ok rnd b : o = CWrite tx by_ x ok rnd b -> q = Req (c_count s + 1) tx by_ ->
  match raft_call s o with
  | None => n = c_node s
  | Some ro => exists a, rstep sz hmac (c_node s) ro = Ret (n, a)
  end ->
  Ret (refuse D E respond code q (set_node D n s)) = Ret (s', r) -> view s o s' r.
Proof.
  intros Ho Hq Hn X. injection X as X. unfold refuse in X. cbn [set_node CoreTx.c_open CoreTx.c_node CoreTx.c_db CoreTx.c_part CoreTx.c_watch CoreTx.c_fwd] in X.
  destruct (callback E respond q (inl _) (c_open s)) as [op a'] eqn:Ec. injection X as <- <-.
  constructor; cbn [CoreTx.c_open CoreTx.c_node CoreTx.c_db CoreTx.c_part CoreTx.c_watch CoreTx.c_fwd CoreTx.c_count r_taken r_said]; auto.
  - destruct (raft_call s o) as [ro|] eqn:Er; [|auto]. destruct Hn as [a Ha]. exists a. split; [exact Ha|]. symmetry. eapply not_taken; [|exact Ha].
    subst o. cbn in Er. destruct (_ && _)%bool; [|discriminate]. injection Er as <-. discriminate.
  - subst o q. reflexivity.
  - intros q0 a [->|[]] Hs. destruct (callback_success E respond _ _ _ _ _ Ec Hs) as (eff & Y & _). discriminate.
  - apply forwarded_in.
Qed.
Lemma set_node_same s : set_node D (c_node s) s = s. Proof. now destruct s. Qed.
Lemma effect_run db e : effect db e = snd (run_one apply db e).
Proof. unfold Group.effect, run_one. now destruct (e_inner e). Qed.
Lemma cstep_view s o s' r : cstep s o = Ret (s', r) -> view s o s' r.
Proof.
  intros Es. destruct o as [tx by_ x ok rnd b|no an|o|ok|c|c]; cbn [CoreTx.cstep] in Es.
  - unfold write in Es. set (o := CWrite tx by_ x ok rnd b) in *. set (q := Req (c_count s + 1) tx by_) in *.
    assert (Ref : forall code, raft_call s o = None -> Ret (refuse D E respond code q s) = Ret (s', r) -> view s o s' r).
    { intros code Hn X. eapply (view_refuse code (c_node s) q s o); try reflexivity; [now rewrite Hn|]. now rewrite set_node_same. }
    assert (Hcall : raft_call s o = if (match by_ with AClient c => existsb (N.eqb c) (c_open s) | AHost => true end && c_part s && is_leader (c_node s)
          && negb (psize (m_voting (mship (c_node s))) <? min_voting))%bool then Some (ORequest ok rnd x) else None) by reflexivity.
    destruct (match by_ with AClient c => existsb (N.eqb c) (c_open s) | AHost => true end); cbn [negb andb] in *; [|eauto].
    destruct (c_part s); cbn [negb andb] in *; [|eauto].
    destruct (is_leader (c_node s)) eqn:El; cbn [negb andb] in *.
    + destruct (psize (m_voting (mship (c_node s))) <? min_voting); cbn [negb] in *; [eauto|].
      destruct (rstep sz hmac (c_node s) (ORequest ok rnd x)) as [[n a1]|] eqn:Er; [|discriminate]. cbn [bind] in Es.
      assert (Ref2 : forall code, Ret (refuse D E respond code q (set_node D n s)) = Ret (s', r) -> view s o s' r).
      { intros code X. eapply (view_refuse code n q s o); try reflexivity; [|exact X]. rewrite Hcall. eauto. }
      destruct (a_loc a1) as [[l er]|] eqn:Ea; [|eauto]. destruct er; eauto. injection Es as <- <-.
      constructor; cbn [CoreTx.c_open CoreTx.c_node CoreTx.c_db CoreTx.c_part CoreTx.c_watch CoreTx.c_fwd CoreTx.c_count r_taken r_said]; auto.
      * rewrite Hcall. exists a1. split; [assumption|]. symmetry. eapply not_taken; [|exact Er]. discriminate.
      * intros w Hw. apply in_app_or in Hw as [Hw|[<-|[]]]; [auto|]. right. left. exists tx, by_, x, ok, rnd, b, a1. auto 10.
      * intros ? ? [].
      * apply forwarded_in.
    + assert (Hnone : raft_call s o = None) by exact Hcall.
      destruct (n_role (c_node s)) as [[ld|] el| |]; eauto. destruct b; [|eauto]. injection Es as <- <-.
      constructor; cbn [CoreTx.c_open CoreTx.c_node CoreTx.c_db CoreTx.c_part CoreTx.c_watch CoreTx.c_fwd CoreTx.c_count r_taken r_said]; auto.
      * rewrite Hnone. auto.
      * intros q0 Hq. apply in_app_or in Hq as [Hq|[<-|[]]]; [auto|]. right. exists tx, by_, x, ok, rnd, true. auto.
      * intros ? ? [].
      * apply forwarded_in.
  - injection Es as Es. unfold answer in Es. destruct (find _ (c_fwd s)) as [q1|] eqn:Ef.
    2:{ injection Es as <- <-. constructor; cbn; auto; [lia|intros ? ? []|intros ? ? []]. }
    apply find_some in Ef as [Hin Hno]. apply N.eqb_eq in Hno.
    destruct an as [ec|l1|].
    + destruct (callback E respond q1 (inl _) (c_open s)) as [op a1] eqn:Ec. injection Es as <- <-.
      constructor; cbn; auto; [lia|intros q Hq; apply filter_In in Hq; tauto| |intros ? ? []].
      intros q0 a [->|[]] Hs. destruct (callback_success E respond _ _ _ _ _ Ec Hs) as (eff & Y & _). discriminate.
    + injection Es as <- <-. constructor; cbn; auto; [lia|intros q Hq; apply filter_In in Hq; tauto| |intros ? ? []|intros ? ? []].
      intros w Hw. apply in_app_or in Hw as [Hw|[<-|[]]]; [auto|]. right; right. cbn. split; [congruence|assumption].
    + destruct (callback E respond q1 (inl _) (c_open s)) as [op a1] eqn:Ec. injection Es as <- <-.
      constructor; cbn; auto; [lia|intros q Hq; apply filter_In in Hq; tauto| |intros ? ? []].
      intros q0 a [->|[]] Hs. destruct (callback_success E respond _ _ _ _ _ Ec Hs) as (eff & Y & _). discriminate.
  - assert (Hd : o <> OTake -> (let* '(n, _) := rstep sz hmac (c_node s) o in Ret (set_node D n s, quiet_res)) = Ret (s', r) -> view s (CRaft o) s' r).
    { intros Hne X. destruct (rstep sz hmac (c_node s) o) as [[n a1]|] eqn:Er; [|discriminate]. cbn in X. injection X as <- <-.
      constructor; cbn [CoreTx.c_open CoreTx.c_node CoreTx.c_db CoreTx.c_part CoreTx.c_watch CoreTx.c_fwd CoreTx.c_count r_taken r_said set_node quiet_res]; auto;
        [|lia|intros ? ? []|intros ? ? []].
      assert (Hc : raft_call s (CRaft o) = Some o) by (destruct o; cbn; congruence). rewrite Hc. exists a1. split; [assumption|].
      symmetry. eapply not_taken; eassumption. }
    destruct o; try (apply Hd; [discriminate|exact Es]). injection Es as <- <-. constructor; cbn; auto; [lia|intros ? ? []|intros ? ? []].
  - unfold take in Es. destruct (rstep sz hmac (c_node s) OTake) as [[n a1]|] eqn:Er; [|discriminate]. cbn [bind] in Es.
    destruct (a_taken a1) as [[i e]|] eqn:Et.
    2:{ injection Es as <- <-. constructor; cbn [CoreTx.c_open CoreTx.c_node CoreTx.c_db CoreTx.c_part CoreTx.c_watch CoreTx.c_fwd CoreTx.c_count r_taken r_said set_node quiet_res]; auto;
        [|lia|intros ? ? []|intros ? ? []]. cbn [Group.raft_call]. exists a1. auto. }
    destruct ok; cbn [negb] in Es; [|discriminate]. pose proof (effect_run (c_db s) e) as He. unfold run_one in He.
    destruct (match e_inner e with IData d => apply (c_db s) d | _ => (c_db s, None) end) as [db eff] eqn:Ed.
    set (removed := match e_inner e with IMember g => (c_part s && negb (contains_me (n_me n) g))%bool | _ => false end) in *. clearbody removed.
    destruct (callbacks _ _ _ (c_open s)) as [op said] eqn:Ec. injection Es as <- <-.
    constructor; cbn [CoreTx.c_open CoreTx.c_node CoreTx.c_db CoreTx.c_part CoreTx.c_watch CoreTx.c_fwd CoreTx.c_count r_taken r_said set_node quiet_res]; auto.
    + cbn [Group.raft_call]. exists a1. auto.
    + unfold run_one. now rewrite Ed.
    + lia.
    + intros w Hw. left. apply filter_In in Hw as [Hw _]. destruct removed; [contradiction|assumption].
    + intros q a Hin Hs. destruct (callbacks_success E respond _ _ _ _ _ _ Ec Hin Hs) as (eff' & Hin' & Hm). apply in_app_or in Hin' as [Hin'|Hin'].
      { exfalso. destruct removed; [|contradiction]. apply in_map_iff in Hin' as [w [X _]]. discriminate. }
      apply in_map_iff in Hin' as [w [X Hw]]. apply filter_In in Hw as [Hw Hidx]. apply N.eqb_eq in Hidx. injection X as Hq Ho.
      assert (Hw' : In w (c_watch s)) by (destruct removed; [contradiction|assumption]).
      destruct (outcome_for_some hmac D E apply respond _ _ _ _ Ho) as (-> & Ht & Hh). exists i, e, w. split; [reflexivity|]. split; [assumption|]. split; [assumption|].
      split; [now repeat split|]. destruct (q_by q) as [c|]; [|assumption]. destruct Hm as (_ & ef & b & -> & Hr & Ha). exists ef, b. auto.
    + intros ? ? [].
  - injection Es as <- <-. constructor; cbn; auto; [lia|intros ? ? []|intros ? ? []].
  - injection Es as <- <-. constructor; cbn; auto; [lia|intros ? ? []|intros ? ? []].
Qed.
End View.

(* --- one machine ------------------------------------------------------------- *)
Section Machine.
Context {D E : Type}.
Variable apply : D -> bytes -> D * option E.
Lemma run_all_app es1 es2 : forall db, run_all apply db (es1 ++ es2) =
  (fst (run_all apply (fst (run_all apply db es1)) es2), snd (run_all apply db es1) ++ snd (run_all apply (fst (run_all apply db es1)) es2)).
Proof.
  induction es1 as [|e es1 IH]; intros db; cbn [app run_all]; [cbn; now destruct (run_all apply db es2)|].
  destruct (run_one apply db e) as [db1 eff]. rewrite IH. destruct (run_all apply db1 es1) as [db2 r]. reflexivity.
Qed.
Lemma run_all_snoc db es e : fst (run_all apply db (es ++ [e])) = fst (run_one apply (fst (run_all apply db es)) e).
Proof. rewrite run_all_app. cbn [run_all fst]. now destruct (run_one apply _ e). Qed.
Lemma run_all_nth es : forall db p e, nth_error es p = Some e ->
  nth_error (snd (run_all apply db es)) p = Some (snd (run_one apply (fst (run_all apply db (firstn p es))) e)).
Proof.
  induction es as [|e0 es IH]; intros db p e H; [destruct p; discriminate|]. cbn [run_all].
  destruct (run_one apply db e0) as [db1 eff] eqn:E1. destruct (run_all apply db1 es) as [db2 r] eqn:E2. cbn [snd].
  destruct p as [|p]; cbn [nth_error firstn] in *.
  - injection H as ->. cbn [run_all fst]. now rewrite E1.
  - cbn [run_all]. rewrite E1. specialize (IH db1 p e H). rewrite E2 in IH. cbn [snd] in IH. rewrite IH.
    now destruct (run_all apply db1 (firstn p es)).
Qed.
End Machine.

(* --- stripping a group to its raft nodes -------------------------------------- *)
Section Strip.
Context {D E : Type}.
Definition strip (kv : bytes * gstate D) : bytes * rstate := (fst kv, (c_node D (fst (snd kv)), snd (snd kv))).
Definition net_of (g : group D E) : net :=
  Net (map strip (g_now D E g)) (map strip (g_past D E g)) (g_soup D E g) [] (g_rolled D E g).
Lemma strip_put k s A (m : list (bytes * gstate D)) : map strip (put k (s, A) m) = put k (c_node D s, A) (map strip m).
Proof.
  induction m as [|[j [t B]] m IH]; [reflexivity|]. cbn [put map strip fst snd]. destruct (bcmp k j); cbn [map]; rewrite ?IH; reflexivity.
Qed.
Lemma strip_lookup k (m : list (bytes * gstate D)) :
  lookup k (map strip m) = match lookup k m with Some (s, A) => Some (c_node D s, A) | None => None end.
Proof.
  induction m as [|[j [t B]] m IH]; [reflexivity|]. cbn [lookup map strip fst snd]. destruct (beq k j); [reflexivity|exact IH].
Qed.
Lemma strip_in k s A (m : list (bytes * gstate D)) : In (k, (s, A)) m -> In (k, (c_node D s, A)) (map strip m).
Proof. intros H. apply in_map_iff. now exists (k, (s, A)). Qed.
Lemma in_strip k n A (m : list (bytes * gstate D)) : In (k, (n, A)) (map strip m) -> exists s, c_node D s = n /\ In (k, (s, A)) m.
Proof. intros H. apply in_map_iff in H as [[k' [s A']] [X H]]. unfold strip in X; cbn in X. injection X as <- <- <-. eauto. Qed.
End Strip.

(* --- raft steps of the group --------------------------------------------------- *)
Section Raft.
Variable sz : sizes.
Variable hmac : bytes -> bytes -> bytes.
Variable M : members.
Variable sm : N.
Variable L0 : list entry.
Variable Fm : members -> Prop.
Hypothesis HFM : Fm M.
Hypothesis Hwf : forall m, Fm m -> wf_members m.
Variable okx : inner -> Prop.
Hypothesis okx_none : okx INone.
Hypothesis okx_mem : forall g m, okx (IMember g) -> from_proto g = (m, M_OK) -> Fm m.
Notation ginv := (ginv hmac sm L0 Fm okx).

Lemma ginv_taken now past soup tk rolled : ginv (Net now past soup tk rolled) -> ginv (Net now past soup [] rolled).
Proof. intros []. constructor; auto. intros ? ? ? []. Qed.
Lemma ginv_again k x now past soup rolled : ginv (Net now past soup [] rolled) -> lookup k now = Some x ->
  ginv (Net (put k x now) (past ++ [(k, x)]) soup [] rolled).
Proof.
  intros HI El. destruct x as [n A]. pose proof (gi_now _ _ _ _ _ _ HI k n A El) as Hin. cbn [w_past] in Hin.
  assert (Hi : incl past (past ++ [(k, (n, A))])) by (intros y Hy; apply in_or_app; auto).
  assert (Hb : forall y, In y (past ++ [(k, (n, A))]) -> In y past).
  { intros y Hy. apply in_app_or in Hy as [Hy|[<-|[]]]; assumption. }
  assert (Hl : forall k1, lookup k1 (put k (n, A) now) = lookup k1 now).
  { intros k1. destruct (list_eq_dec N.eq_dec k1 k) as [->|Hne]; [now rewrite lookup_put_same|now rewrite lookup_put_other]. }
  destruct HI. cbn [w_now w_past w_soup w_taken w_rolled] in *. constructor; cbn [w_now w_past w_soup w_taken w_rolled].
  - intros k1 m B H1. destruct (gi_past k1 m B (Hb _ H1)) as [H2 H3]. split; [|assumption]. eapply rip_mono; eassumption.
  - intros k1 m B H1. rewrite Hl in H1. auto.
  - intros k1 to m H1. destruct (gi_soup k1 to m H1) as [n2 [B [H2 H3]]]. exists n2, B. split; [auto|]. eapply gMP_mono; eassumption.
  - intros ? ? ? [].
  - intros k1 m B Hnr H1. destruct (gi_chain k1 m B Hnr (Hb _ H1)) as [y [H2 [C1 C2]]]. exists y. rewrite Hl. split; [assumption|].
    split; [intros ? ? H3; apply C1; auto|intros ? ? ? ? H3 H4; apply C2; auto].
Qed.
Lemma ginv_back k x now past soup rolled : ginv (Net now past soup [] rolled) -> In (k, x) past ->
  ginv (Net (put k x now) past soup [] (pins k rolled)).
Proof.
  intros HI Hin. constructor; cbn [w_now w_past w_soup w_taken w_rolled]; try apply HI.
  - intros k1 n A Hl. destruct (list_eq_dec N.eq_dec k1 k) as [->|Hne].
    + rewrite lookup_put_same in Hl. injection Hl as ->. assumption.
    + rewrite lookup_put_other in Hl by assumption. exact (gi_now _ _ _ _ _ _ HI k1 n A Hl).
  - intros k1 n A Hnr H1. rewrite pins_In in Hnr. destruct (gi_chain _ _ _ _ _ _ HI k1 n A ltac:(tauto) H1) as [y [Hy C]].
    exists y. split; [|assumption]. cbn [w_now] in Hy. rewrite lookup_put_other by tauto. assumption.
Qed.
Definition rpre (s : net) (k : bytes) (o : rop) : Prop :=
  match o with
  | OReceive _ _ _ from m => exists to, In (from, (to, m)) (w_soup s) /\ forall p, to = Some p -> p = k
  | ORequest _ _ x => okx x
  | _ => True
  end.
Lemma rpre_op s k o n A : ginv s -> unclashed (w_past s) -> rpre s k o -> lookup k (w_now s) = Some (n, A) ->
  op_pre hmac (gG L0 (w_past s)) (gW (w_past s)) (gC sm L0 Fm (w_past s) k) (gK L0 okx) vtrue n A o.
Proof.
  intros HI Hun Hp El. destruct o; cbn [op_pre rpre] in *; auto.
  - destruct Hp as [to [Hs Hto]]. intros Hval. pose proof (gi_now _ _ _ _ _ s HI k n A El) as Hin. destruct (gi_past _ _ _ _ _ s HI k n A Hin) as [HR Ho].
    destruct (gi_soup _ _ _ _ _ s HI from to m Hs) as [nf [B [H1 H2]]].
    eapply (deliver_pre hmac M sm L0 Fm HFM Hwf okx okx_mem); try eassumption. exists nf, B. split; [assumption|]. split; [apply (gi_past _ _ _ _ _ s HI from nf B H1)|assumption].
  - intros A1 _ HK _. eapply (gKdata M L0 Fm HFM Hwf okx okx_mem); eassumption.
Qed.
(* what a raft call does to one replica of the group *)
Record rmove (s : net) (k : bytes) (n : node) (A : list entry) (o : rop) (n' : node) (a : ranswer) : Prop := MkRmove {
  rm_inv : ginv (Net (put k (n', regrow A (n_log n')) (w_now s)) (w_past s ++ [(k, (n', regrow A (n_log n')))])
             (w_soup s ++ map (pair k) (a_sent a)) [] (w_rolled s));
  rm_keep : upto (n_applied n) (regrow A (n_log n')) = upto (n_applied n) A;
  rm_take : match a_taken a with
            | Some (i, e) => regrow A (n_log n') = A /\ i = n_applied n + 1 /\ n_applied n' = i /\ i <= n_commit n /\ nth_entry A i = Some e
            | None => n_applied n' = n_applied n
            end;
  rm_loc : match a_loc a with
           | Some (l, RE_OK) => exists ok rnd x, o = ORequest ok rnd x /\
               nth_entry (regrow A (n_log n')) (lc_idx l) = Some (Entry (lc_term l) x (lc_hash l))
           | _ => True
           end
}.
Lemma raft_move s k n A o n' a : ginv s -> unclashed (w_past s) -> rpre s k o -> lookup k (w_now s) = Some (n, A) ->
  rstep sz hmac n o = Ret (n', a) -> rmove s k n A o n' a.
Proof.
  intros HI Hun Hp El Er.
  assert (Hop : forall n0 A0, lookup k (w_now s) = Some (n0, A0) -> op_pre hmac (gG L0 (w_past s)) (gW (w_past s)) (gC sm L0 Fm (w_past s) k) (gK L0 okx) vtrue n0 A0 o).
  { intros n0 A0 E0. eapply rpre_op; eassumption. }
  pose proof (act_inv sz hmac M sm L0 Fm HFM Hwf okx okx_none okx_mem k o s HI Hop) as H1.
  unfold act in H1. rewrite El, Er in H1. cbv zeta in H1. apply ginv_taken in H1.
  pose proof (gi_now _ _ _ _ _ s HI k n A El) as Hin. destruct (gi_past _ _ _ _ _ s HI k n A Hin) as [HR Ho].
  destruct (rip_step sz hmac M sm L0 Fm HFM Hwf okx okx_none okx_mem _ k n A o n' a HR Ho (Hop n A El) Er) as [n1 [A' [-> [Hs [R1 [V1 [Ht Hl]]]]]]].
  pose proof (ri_ac _ _ _ _ _ _ _ _ _ _ _ HR) as Hac. pose proof (ri_al _ _ _ _ _ _ _ _ _ _ _ HR) as Hal.
  assert (HA' : regrow A (n_log (set_out [] n1)) = A').
  { apply (regrow_same A A' (n_log n1) (n_applied n1)); [apply (ri_st _ _ _ _ _ _ _ _ _ _ _ R1)|]. destruct (a_taken a) as [[i e]|].
    - destruct Ht as [_ [-> _]]. now left.
    - right. destruct Ht as [-> _].
      split; [assumption|]. eapply prefix_trans; [apply upto_le|apply (eh_keep _ _ _ _ V1)]; lia. }
  constructor.
  - exact H1.
  - rewrite HA'. pose proof (prefix_trans _ _ _ (upto_le (n_applied n) (N.max (n_commit n) (n_promise n)) A ltac:(lia)) (eh_keep _ _ _ _ V1)) as Hk.
    pose proof (prefix_upto_eq (n_applied n) _ _ Hk) as Hk2. rewrite upto_len in Hk2 by assumption. rewrite <- Hk2 by lia. now rewrite upto_upto by lia.
  - destruct (a_taken a) as [[i e]|].
    + destruct Ht as [_ [-> [-> [H2 [H3 H4]]]]]. rewrite HA'. split; [reflexivity|]. split; [reflexivity|]. split; [exact H2|]. split; [lia|assumption].
    + exact (proj1 Ht).
  - destruct (a_loc a) as [[l er]|]; [|exact I]. destruct er; auto. destruct Hl as [ok [rnd [x [H2 [H3 [H4 [H5 H6]]]]]]]. exists ok, rnd, x. now rewrite HA'.
Qed.
End Raft.

(* --- the group ------------------------------------------------------------------ *)
Section Group.
Variable sz : sizes.
Variable hmac : bytes -> bytes -> bytes.
Variables D E : Type.
Variable apply : D -> bytes -> D * option E.
Variable respond : N -> E -> option bytes.
Variable min_voting : N.
Variable M : members.
Variable sm : N.
Variable L0 : list entry.
Variable db0 : D.
Variable Fm : members -> Prop.
Hypothesis HFM : Fm M.
Hypothesis Hwf : forall m, Fm m -> wf_members m.
(* everything seen in the whole run *)
Variable F : list (bytes * seen E).
Notation core := (core D).
Notation cstep := (cstep sz hmac D E apply respond min_voting).
Notation c_node := (c_node D). Notation c_db := (c_db D). Notation c_watch := (c_watch D).
Notation c_fwd := (c_fwd D). Notation c_count := (c_count D).
Notation raft_call := (raft_call D min_voting).
Notation group := (group D E).
Notation g_now := (g_now D E). Notation g_past := (g_past D E). Notation g_soup := (g_soup D E). Notation g_fwd := (g_fwd D E).
Notation g_ans := (g_ans D E). Notation g_seen := (g_seen D E). Notation g_rolled := (g_rolled D E).
Notation Asked := (Asked E). Notation Took := (Took E). Notation Said := (Said E).
Notation move := (move D E).

Definition okf (x : inner) : Prop := within Fm x /\ (x = INone \/ (exists gr, x = IMember gr) \/ exists k q, In (k, Asked q x) F).
Lemma okf_none : okf INone. Proof. split; [exact I|now left]. Qed.
Lemma okf_mem g m : okf (IMember g) -> from_proto g = (m, M_OK) -> Fm m. Proof. intros [H _]. exact (H m). Qed.
Notation ginv := (ginv hmac sm L0 Fm okf).

Definition after (A : list entry) (i : N) : D := fst (run_all apply db0 (skipn (length L0) (upto i A))).
Definition located (g : group) (x : inner) (l : loc) : Prop :=
  exists k s A, gwas g k s A /\ nth_entry A (lc_idx l) = Some (Entry (lc_term l) x (lc_hash l)).
Definition answers (q : req) (a : say) (eff : option E) : Prop := fits_effect respond q a eff.
Record gall (g : group) : Prop := MkGall {
  q_raft : ginv (net_of g);
  q_now : forall k x, lookup k (g_now g) = Some x -> In (k, x) (g_past g);
  q_db : forall k s A, gwas g k s A -> llen L0 <= n_applied (c_node s) /\ c_db s = after A (n_applied (c_node s));
  q_took : forall k i e eff, saw g k (Took i e eff) -> exists s A, gwas g k s A /\ llen L0 < i /\ i <= n_commit (c_node s) /\
             nth_entry A i = Some e /\ eff = snd (run_one apply (after A (i - 1)) e);
  q_fwd : forall k no x, In (k, (no, x)) (g_fwd g) -> exists q, q_no q = no /\ saw g k (Asked q x);
  q_ans : forall k no l, In (k, (no, FLocated l)) (g_ans g) -> exists x, In (k, (no, x)) (g_fwd g) /\ located g x l;
  q_cnt : forall k s A q x, ~ In k (g_rolled g) -> lookup k (g_now g) = Some (s, A) -> saw g k (Asked q x) -> q_no q <= c_count s;
  q_uniq : forall k q1 x1 q2 x2, ~ In k (g_rolled g) -> saw g k (Asked q1 x1) -> saw g k (Asked q2 x2) -> q_no q1 = q_no q2 -> q1 = q2 /\ x1 = x2;
  q_cfwd : forall k s A q, ~ In k (g_rolled g) -> lookup k (g_now g) = Some (s, A) -> In q (c_fwd s) -> exists x, saw g k (Asked q x);
  q_watch : forall k s A w, ~ In k (g_rolled g) -> lookup k (g_now g) = Some (s, A) -> In w (c_watch s) ->
              exists x, saw g k (Asked (w_req w) x) /\ located g x (w_at w);
  q_said : forall k q a, ~ In k (g_rolled g) -> saw g k (Said q a) -> success a ->
              exists x i e eff, saw g k (Asked q x) /\ saw g k (Took i e eff) /\ e_inner e = x /\ answers q a eff;
  q_all : forall k s A j, gwas g k s A -> llen L0 < j -> j <= n_applied (c_node s) -> exists e eff, saw g k (Took j e eff);
  q_told : forall k q a, saw g k (Said q a) -> success a -> exists i e eff, saw g k (Took i e eff) /\ answers q a eff;
  q_upto : forall k i e eff, saw g k (Took i e eff) -> exists s A, gwas g k s A /\ i <= n_applied (c_node s)
}.

Record stepped (g : group) (k : bytes) (s : core) (A : list entry) (s' : core) (A' : list entry) (msgs : list (option bytes * rmsg))
    (fwd : list (N * inner)) (ans : list (bytes * (N * fanswer))) (sn : list (seen E)) (tk : option (N * entry)) : Prop := MkStepped {
  st_raft : (c_node s' = c_node s /\ A' = A /\ msgs = [] /\ tk = None) \/
    (exists ro a, rpre okf (net_of g) k ro /\ rstep sz hmac (c_node s) ro = Ret (c_node s', a) /\ A' = regrow A (n_log (c_node s')) /\
       msgs = a_sent a /\ tk = a_taken a);
  st_db : c_db s' = match tk with Some (i, e) => fst (run_one apply (c_db s) e) | None => c_db s end;
  st_took : forall i e eff, In (Took i e eff) sn <-> tk = Some (i, e) /\ eff = snd (run_one apply (c_db s) e);
  st_asked : forall q x, In (Asked q x) sn -> q_no q = c_count s + 1 /\ c_count s + 1 <= c_count s';
  st_one : forall q1 x1 q2 x2, In (Asked q1 x1) sn -> In (Asked q2 x2) sn -> q1 = q2 /\ x1 = x2;
  st_cnt : c_count s <= c_count s';
  st_fwd : forall no x, In (no, x) fwd -> exists q, q_no q = no /\ In (Asked q x) sn;
  st_ans : forall to no l, In (to, (no, FLocated l)) ans -> exists x, In (to, (no, x)) (g_fwd g) /\
             nth_entry A' (lc_idx l) = Some (Entry (lc_term l) x (lc_hash l));
  st_cfwd : forall q, In q (c_fwd s') -> In q (c_fwd s) \/ exists x, In (Asked q x) sn;
  st_watch : forall w, In w (c_watch s') -> In w (c_watch s) \/
     (exists x, In (Asked (w_req w) x) sn /\ nth_entry A' (lc_idx (w_at w)) = Some (Entry (lc_term (w_at w)) x (lc_hash (w_at w)))) \/
     (In (k, (q_no (w_req w), FLocated (w_at w))) (g_ans g) /\ In (w_req w) (c_fwd s));
  st_said : forall q a, In (Said q a) sn -> success a -> exists i e w, tk = Some (i, e) /\ In w (c_watch s) /\ w_req w = q /\
     matches i e (w_at w) /\ answers q a (snd (run_one apply (c_db s) e))
}.
Lemma after_same A B i : upto i A = upto i B -> after A i = after B i.
Proof. unfold after. now intros ->. Qed.
Lemma after_next A i e : llen L0 <= i -> prefix L0 A -> nth_entry A (i + 1) = Some e -> after A (i + 1) = fst (run_one apply (after A i) e).
Proof.
  intros Hi Hp Hn. unfold after. rewrite (upto_succ i A e Hn), skipn_app. pose proof (nth_entry_len _ _ _ Hn) as Hl.
  pose proof (upto_len i A ltac:(lia)) as Hu. replace (length L0 - length (upto i A))%nat with 0%nat by (unfold llen in *; lia).
  cbn [skipn]. apply run_all_snoc.
Qed.
Lemma saw_move g k s' A' msgs fwd ans sn k1 x : saw (move k s' A' msgs fwd ans sn g) k1 x <-> saw g k1 x \/ (k1 = k /\ In x sn).
Proof.
  unfold saw; cbn [Group.move Group.g_seen]. rewrite in_app_iff, in_map_iff. split.
  - intros [H|[y [X H]]]; [auto|]. injection X as <- <-. auto.
  - intros [H|[-> H]]; [auto|]. right. eauto.
Qed.
Lemma gwas_move g k s' A' msgs fwd ans sn k1 t B : gwas (move k s' A' msgs fwd ans sn g) k1 t B <-> gwas g k1 t B \/ (k1 = k /\ t = s' /\ B = A').
Proof.
  unfold gwas; cbn [Group.move Group.g_past]. rewrite in_app_iff. cbn [In]. split.
  - intros [H|[X|[]]]; [auto|]. injection X as <- <- <-. auto.
  - intros [H|(-> & -> & ->)]; auto.
Qed.
Lemma move_inv g k s A s' A' msgs fwd ans sn tk : gall g -> unclashed (map strip (g_past g)) ->
  lookup k (g_now g) = Some (s, A) -> stepped g k s A s' A' msgs fwd ans sn tk ->
  gall (move k s' A' msgs fwd ans sn g).
Proof.
  intros HI Hun El Hst. set (g' := move k s' A' msgs fwd ans sn g).
  assert (Hl : lookup k (w_now (net_of g)) = Some (c_node s, A)) by (unfold net_of; cbn [w_now]; rewrite strip_lookup, El; reflexivity).
  pose proof (q_now g HI k _ El) as Hin. destruct (q_db g HI k s A Hin) as [Hap Hdb].
  destruct (gi_past _ _ _ _ _ _ (q_raft g HI) k (c_node s) A (strip_in _ _ _ _ Hin)) as [HR _].
  pose proof (proj1 (ri_k _ _ _ _ _ _ _ _ _ _ _ HR)) as HL0. pose proof (ri_ch _ _ _ _ _ _ _ _ _ _ _ HR) as Hch.
  (* the raft part *)
  assert (HR' : ginv (net_of g') /\ upto (n_applied (c_node s)) A' = upto (n_applied (c_node s)) A /\
    match tk with
    | Some (i, e) => A' = A /\ i = n_applied (c_node s) + 1 /\ n_applied (c_node s') = i /\ i <= n_commit (c_node s) /\ nth_entry A i = Some e
    | None => n_applied (c_node s') = n_applied (c_node s)
    end).
  { assert (Hnet : net_of g' = Net (put k (c_node s', A') (w_now (net_of g))) (w_past (net_of g) ++ [(k, (c_node s', A'))])
                     (w_soup (net_of g) ++ map (pair k) msgs) [] (w_rolled (net_of g))).
    { unfold net_of, g'; cbn [Group.move Group.g_now Group.g_past Group.g_soup Group.g_rolled w_now w_past w_soup w_rolled].
      rewrite strip_put, map_app. reflexivity. }
    rewrite Hnet. destruct (st_raft _ _ _ _ _ _ _ _ _ _ _ Hst) as [(Hn & -> & -> & ->)|(ro & a & Hp & Hr & -> & -> & ->)].
    - rewrite Hn. split; [|auto]. cbn [map]. rewrite app_nil_r. apply ginv_again; [|assumption].
      destruct (net_of g) as [w1 w2 w3 w4 w5] eqn:Ew. cbn [w_now w_past w_soup w_rolled]. eapply ginv_taken. rewrite <- Ew. apply HI.
    - destruct (raft_move sz hmac M sm L0 Fm HFM Hwf okf okf_none okf_mem (net_of g) k (c_node s) A ro (c_node s') a (q_raft g HI) Hun Hp Hl Hr).
      split; [assumption|]. split; [assumption|]. destruct (a_taken a) as [[i e]|]; auto. }
  destruct HR' as [Hr' [Hkeep Htk]].
  assert (Hgw : forall k1 t B, gwas g k1 t B -> gwas g' k1 t B) by (intros; apply gwas_move; auto).
  assert (Hsw : forall k1 x, saw g k1 x -> saw g' k1 x) by (intros; apply saw_move; auto).
  assert (Hnew : gwas g' k s' A') by (apply gwas_move; auto).
  assert (Hsn : forall x, In x sn -> saw g' k x) by (intros; apply saw_move; auto).
  assert (Hlo : forall x l, located g x l -> located g' x l) by (intros x l (k1 & t & B & H1 & H2); exists k1, t, B; auto).
  assert (Hol : forall k1 t B, k1 <> k -> lookup k1 (g_now g') = Some (t, B) -> lookup k1 (g_now g) = Some (t, B)).
  { intros k1 t B Hne H. unfold g' in H; cbn [Group.move Group.g_now] in H. now rewrite lookup_put_other in H. }
  assert (Hnw : forall t B, lookup k (g_now g') = Some (t, B) -> t = s').
  { intros t B H. unfold g' in H; cbn [Group.move Group.g_now] in H. rewrite lookup_put_same in H. congruence. }
  assert (Hos : forall k1 x, k1 <> k -> saw g' k1 x -> saw g k1 x) by (intros k1 x Hne H; apply saw_move in H as [H|[H _]]; [assumption|contradiction]).
  constructor.
  - exact Hr'.
  - intros k1 x H. destruct (list_eq_dec N.eq_dec k1 k) as [->|Hne].
    + unfold g' in H; cbn [Group.move Group.g_now] in H. rewrite lookup_put_same in H. injection H as <-. exact Hnew.
    + destruct x as [t B]. apply (Hgw k1 t B). apply (q_now g HI). now apply Hol.
  - intros k1 t B H. apply gwas_move in H as [H|(-> & -> & ->)]; [now apply (q_db g HI k1)|].
    rewrite (st_db _ _ _ _ _ _ _ _ _ _ _ Hst). destruct tk as [[i e]|].
    + destruct Htk as (-> & -> & -> & H3 & H4). split; [lia|]. rewrite Hdb. symmetry. now apply after_next.
    + rewrite Htk. split; [assumption|]. rewrite Hdb. now apply after_same.
  - intros k1 i e eff H. apply saw_move in H as [H|[-> H]].
    + destruct (q_took g HI k1 i e eff H) as (t & B & H1 & H2). exists t, B. auto.
    + apply (st_took _ _ _ _ _ _ _ _ _ _ _ Hst) in H as [-> ->]. destruct Htk as (-> & -> & _ & H3 & H4). exists s, A. split; [auto|]. split; [lia|]. split; [assumption|].
      split; [assumption|]. rewrite Hdb. do 3 f_equal. lia.
  - intros k1 no x H. unfold g' in H; cbn [Group.move Group.g_fwd] in H. apply in_app_or in H as [H|H].
    + destruct (q_fwd g HI k1 no x H) as (q & H1 & H2). exists q. auto.
    + apply in_map_iff in H as [[no' x'] [X H]]. injection X as <- <- <-. destruct (st_fwd _ _ _ _ _ _ _ _ _ _ _ Hst no' x' H) as (q & H1 & H2). exists q. auto.
  - intros k1 no l H. unfold g' in H |- *; cbn [Group.move Group.g_ans Group.g_fwd] in *. fold g'. apply in_app_or in H as [H|H].
    + destruct (q_ans g HI k1 no l H) as (x & H1 & H2). exists x. split; [apply in_or_app; auto|auto].
    + destruct (st_ans _ _ _ _ _ _ _ _ _ _ _ Hst k1 no l H) as (x & H1 & H2). exists x. split; [apply in_or_app; auto|]. exists k, s', A'. auto.
  - intros k1 t B q x Hnr H1 H2. change (g_rolled g') with (g_rolled g) in Hnr. destruct (list_eq_dec N.eq_dec k1 k) as [->|Hne].
    + rewrite (Hnw t B H1). apply saw_move in H2 as [H2|[_ H2]].
      * pose proof (q_cnt g HI k s A q x Hnr El H2). pose proof (st_cnt _ _ _ _ _ _ _ _ _ _ _ Hst). lia.
      * destruct (st_asked _ _ _ _ _ _ _ _ _ _ _ Hst q x H2). lia.
    + apply (q_cnt g HI k1 t B q x); auto.
  - intros k1 q1 x1 q2 x2 Hnr H1 H2 Hq. change (g_rolled g') with (g_rolled g) in Hnr.
    assert (Hf : forall q x, saw g k (Asked q x) -> ~ In k (g_rolled g) -> q_no q < c_count s + 1).
    { intros q x H Hn. pose proof (q_cnt g HI k s A q x Hn El H). lia. }
    apply saw_move in H1 as [H1|[-> H1]], H2 as [H2|[H3 H2]].
    + apply (q_uniq g HI k1); auto.
    + subst k1. pose proof (Hf _ _ H1 Hnr). destruct (st_asked _ _ _ _ _ _ _ _ _ _ _ Hst q2 x2 H2). lia.
    + pose proof (Hf _ _ H2 Hnr). destruct (st_asked _ _ _ _ _ _ _ _ _ _ _ Hst q1 x1 H1). lia.
    + apply (st_one _ _ _ _ _ _ _ _ _ _ _ Hst); assumption.
  - intros k1 t B q Hnr H1 H2. change (g_rolled g') with (g_rolled g) in Hnr. destruct (list_eq_dec N.eq_dec k1 k) as [->|Hne].
    + rewrite (Hnw t B H1) in H2. destruct (st_cfwd _ _ _ _ _ _ _ _ _ _ _ Hst q H2) as [H|[x H]].
      * destruct (q_cfwd g HI k s A q Hnr El H) as [x Hx]. exists x. auto.
      * exists x. auto.
    + destruct (q_cfwd g HI k1 t B q Hnr (Hol _ _ _ Hne H1) H2) as [x Hx]. exists x. auto.
  - intros k1 t B w Hnr H1 H2. change (g_rolled g') with (g_rolled g) in Hnr. destruct (list_eq_dec N.eq_dec k1 k) as [->|Hne].
    + rewrite (Hnw t B H1) in H2. destruct (st_watch _ _ _ _ _ _ _ _ _ _ _ Hst w H2) as [H|[(x & H3 & H4)|[H3 H4]]].
      * destruct (q_watch g HI k s A w Hnr El H) as (x & Hx & Hy). exists x. auto.
      * exists x. split; [auto|]. exists k, s', A'. auto.
      * destruct (q_ans g HI _ _ _ H3) as (x & H5 & H6). destruct (q_fwd g HI _ _ _ H5) as (q & H7 & H8).
        destruct (q_cfwd g HI k s A _ Hnr El H4) as (x' & H9). destruct (q_uniq g HI k _ _ _ _ Hnr H8 H9 H7) as [-> ->]. exists x'. auto.
    + destruct (q_watch g HI k1 t B w Hnr (Hol _ _ _ Hne H1) H2) as (x & Hx & Hy). exists x. auto.
  - intros k1 q a Hnr H1 H2. change (g_rolled g') with (g_rolled g) in Hnr. apply saw_move in H1 as [H1|[-> H1]].
    + destruct (q_said g HI k1 q a Hnr H1 H2) as (x & i & e & eff & H3 & H4 & H5). exists x, i, e, eff. auto.
    + destruct (st_said _ _ _ _ _ _ _ _ _ _ _ Hst q a H1 H2) as (i & e & w & H3 & H4 & H5 & H6 & H7).
      destruct (q_watch g HI k s A w Hnr El H4) as (x & H8 & (k2 & t & B & H9 & H10)). rewrite H5 in H8.
      exists x, i, e, (snd (run_one apply (c_db s) e)). split; [auto|]. split; [apply Hsn, (st_took _ _ _ _ _ _ _ _ _ _ _ Hst); auto|]. split; [|assumption].
      rewrite H3 in Htk. destruct Htk as (_ & _ & _ & _ & H11).
      destruct (gi_past _ _ _ _ _ _ (q_raft g HI) k2 (c_node t) B (strip_in _ _ _ _ H9)) as [HRB _]. pose proof (ri_ch _ _ _ _ _ _ _ _ _ _ _ HRB) as HchB.
      destruct H6 as (H12 & H13 & H14). rewrite H12 in H10.
      assert (H15 : lc_hash (w_at w) = e_hash e).
      { destruct H14 as [H14|H14]; [|assumption]. exfalso. pose proof (nth_entry_len _ _ _ H10) as Hlen.
        assert (Hb : In (Entry (lc_term (w_at w)) x (lc_hash (w_at w))) B).
        { unfold nth_entry in H10. destruct (i =? 0); [discriminate|]. eapply nth_error_In; eassumption. }
        destruct (chained_hash_len hmac B _ HchB Hb) as [H16 _]. cbn [e_hash] in H16. rewrite H14 in H16. discriminate. }
      assert (Hup : upto i B = upto i A).
      { eapply (same_prefix hmac B A i); eauto. eapply Hun; apply strip_in; eassumption. }
      pose proof (upto_nth i i B A Hup ltac:(lia)) as H16. rewrite H10, H11 in H16. injection H16 as <-. reflexivity.
  - intros k1 t B j H H1 H2. apply gwas_move in H as [H|(-> & -> & ->)].
    + destruct (q_all g HI k1 t B j H H1 H2) as (e & eff & H3). exists e, eff. auto.
    + destruct tk as [[i e]|].
      * destruct Htk as (_ & Hi & H3 & _). destruct (N.eq_dec j i) as [->|Hne].
        { exists e, (snd (run_one apply (c_db s) e)). apply Hsn, (st_took _ _ _ _ _ _ _ _ _ _ _ Hst). auto. }
        destruct (q_all g HI k s A j Hin H1) as (e' & eff & H4); [lia|]. exists e', eff. auto.
      * rewrite Htk in H2. destruct (q_all g HI k s A j Hin H1 H2) as (e & eff & H3). exists e, eff. auto.
  - intros k1 q a H1 H2. apply saw_move in H1 as [H1|[-> H1]].
    + destruct (q_told g HI k1 q a H1 H2) as (i & e & eff & H3 & H4). exists i, e, eff. auto.
    + destruct (st_said _ _ _ _ _ _ _ _ _ _ _ Hst q a H1 H2) as (i & e & w & H3 & _ & _ & _ & H7). exists i, e, (snd (run_one apply (c_db s) e)).
      split; [|assumption]. apply Hsn, (st_took _ _ _ _ _ _ _ _ _ _ _ Hst). auto.
  - intros k1 i e eff H. apply saw_move in H as [H|[-> H]].
    + destruct (q_upto g HI k1 i e eff H) as (t & B & H1 & H2). exists t, B. auto.
    + apply (st_took _ _ _ _ _ _ _ _ _ _ _ Hst) in H as [-> _]. destruct Htk as (_ & _ & H3 & _). exists s', A'. split; [assumption|lia].
Qed.

(* --- the steps -------------------------------------------------------------------- *)
Lemma run_core_move k o g :
  run_core sz hmac D E apply respond min_voting k o g = g \/
  exists s A s' r, lookup k (g_now g) = Some (s, A) /\ cstep s o = Ret (s', r) /\
    run_core sz hmac D E apply respond min_voting k o g =
    move k s' (log_after D A (raft_call s o) s') (mail sz hmac (c_node s) (raft_call s o)) (forwarded D s o s') [] (seen_in D E apply s o r) g.
Proof.
  unfold run_core. destruct (lookup k (g_now g)) as [[s A]|] eqn:El; [|auto]. destruct (cstep s o) as [[s' r]|] eqn:Ec; [|auto]. right. exists s, A, s', r. auto.
Qed.
Lemma seen_in_asked s o r q x : In (Asked q x) (seen_in D E apply s o r) <->
  exists tx by_ ok rnd b, o = CWrite tx by_ x ok rnd b /\ q = Req (c_count s + 1) tx by_.
Proof.
  unfold seen_in. rewrite !in_app_iff. split.
  - intros [H|[H|H]].
    + destruct o as [tx by_ x0 ok rnd b| | | | |]; try contradiction. destruct H as [H|[]]. injection H as <- <-. exists tx, by_, ok, rnd, b. auto.
    + destruct (r_taken r) as [[i e]|]; [|contradiction]. destruct H as [H|[]]. discriminate.
    + apply in_map_iff in H as [y [X _]]. discriminate.
  - intros (tx & by_ & ok & rnd & b & -> & ->). left. now left.
Qed.
Lemma seen_in_took s o r i e eff : In (Took i e eff) (seen_in D E apply s o r) <-> r_taken r = Some (i, e) /\ eff = snd (run_one apply (c_db s) e).
Proof.
  unfold seen_in. rewrite !in_app_iff. rewrite <- effect_run. split.
  - intros [H|[H|H]].
    + destruct o as [tx by_ x0 ok rnd b| | | | |]; try contradiction. destruct H as [H|[]]. discriminate.
    + destruct (r_taken r) as [[i' e']|]; [|contradiction]. destruct H as [H|[]]. injection H as <- <- <-. auto.
    + apply in_map_iff in H as [y [X _]]. discriminate.
  - intros [-> ->]. right. left. now left.
Qed.
Lemma seen_in_said s o r q a : In (Said q a) (seen_in D E apply s o r) <-> In (q, a) (r_said r).
Proof.
  unfold seen_in. rewrite !in_app_iff. split.
  - intros [H|[H|H]].
    + destruct o as [tx by_ x0 ok rnd b| | | | |]; try contradiction. destruct H as [H|[]]. discriminate.
    + destruct (r_taken r) as [[i' e']|]; [|contradiction]. destruct H as [H|[]]. discriminate.
    + apply in_map_iff in H as [[q' a'] [X H]]. injection X as <- <-. assumption.
  - intros H. right. right. apply in_map_iff. now exists (q, a).
Qed.
(* what may be asked of a core in a step *)
Definition copre (g : group) (k : bytes) (o : cop) : Prop :=
  match o with
  | CWrite tx by_ x _ _ _ => within Fm x
  | CRaft (OReceive _ _ _ from m) => exists to, In (from, (to, m)) (g_soup g) /\ forall p, to = Some p -> p = k
  | CRaft (ORequest _ _ _) => False
  | CAnswer no (FLocated l) => In (k, (no, FLocated l)) (g_ans g)
  | _ => True
  end.
Lemma core_stepped g k s A o s' r : gall g -> unclashed (map strip (g_past g)) -> lookup k (g_now g) = Some (s, A) -> copre g k o ->
  cstep s o = Ret (s', r) -> (forall x, In x (seen_in D E apply s o r) -> In (k, x) F) ->
  stepped g k s A s' (log_after D A (raft_call s o) s') (mail sz hmac (c_node s) (raft_call s o)) (forwarded D s o s') []
    (seen_in D E apply s o r) (r_taken r).
Proof.
  intros HI Hun El Hp Ec HF. pose proof (cstep_view sz hmac D E apply respond min_voting s o s' r Ec) as [vw_raft vw_db vw_count vw_fwd vw_watch vw_said vw_forw].
  assert (Hrp : forall ro, raft_call s o = Some ro -> rpre okf (net_of g) k ro).
  { intros ro Hc. destruct o as [tx by_ x ok rnd b|no an|o|ok|c|c]; cbn [Group.raft_call] in Hc; try discriminate.
    - destruct (_ && _)%bool in Hc; [|discriminate]. injection Hc as <-. cbn [rpre]. cbn [copre] in Hp. split; [assumption|]. right; right.
      exists k, (Req (c_count s + 1) tx by_). apply HF. apply seen_in_asked. exists tx, by_, ok, rnd, b. auto.
    - destruct o; try discriminate; injection Hc as <-; cbn [rpre copre] in *; auto; try contradiction.
    - injection Hc as <-. exact I. }
  constructor.
  - destruct (raft_call s o) as [ro|] eqn:Er; cbn [log_after mail].
    + right. destruct vw_raft as [a [H1 H2]]. exists ro, a. rewrite H1. split; [auto|]. auto.
    + left. destruct vw_raft as [H1 H2]. auto.
  - assumption.
  - intros i e eff. apply seen_in_took.
  - intros q x H. apply seen_in_asked in H as (tx & by_ & ok & rnd & b & -> & ->). cbn [q_no]. rewrite vw_count. lia.
  - intros q1 x1 q2 x2 H1 H2. apply seen_in_asked in H1 as (tx & by_ & ok & rnd & b & -> & ->). apply seen_in_asked in H2 as (tx' & by_' & ok' & rnd' & b' & X & ->).
    injection X as <- <- <- <- <- <-. auto.
  - rewrite vw_count. lia.
  - intros no x H. destruct (vw_forw no x H) as (-> & tx & by_ & ok & rnd & b & ->). exists (Req (c_count s + 1) tx by_). split; [reflexivity|].
    apply seen_in_asked. exists tx, by_, ok, rnd, b. auto.
  - intros ? ? ? [].
  - intros q H. destruct (vw_fwd q H) as [H1|(tx & by_ & x & ok & rnd & b & -> & ->)]; [auto|]. right. exists x. apply seen_in_asked. exists tx, by_, ok, rnd, b. auto.
  - intros w H. destruct (vw_watch w H) as [H1|[(tx & by_ & x & ok & rnd & b & a & -> & H2 & H3 & H4 & H5)|[H2 H3]]]; [auto| |].
    + right. left. exists x. split; [apply seen_in_asked; exists tx, by_, ok, rnd, b; auto|].
      assert (Hl : lookup k (w_now (net_of g)) = Some (c_node s, A)) by (unfold net_of; cbn [w_now]; rewrite strip_lookup, El; reflexivity).
      destruct (raft_move sz hmac M sm L0 Fm HFM Hwf okf okf_none okf_mem (net_of g) k (c_node s) A _ (c_node s') a (q_raft g HI) Hun (Hrp _ H3) Hl H4) as [_ _ _ rm_loc].
      rewrite H5 in rm_loc. destruct rm_loc as (ok' & rnd' & x' & X & Hn). injection X as <- <- <-. rewrite H3. cbn [log_after]. exact Hn.
    + right. right. subst o. split; [exact Hp|assumption].
  - intros q a H Hs. apply seen_in_said in H. destruct (vw_said q a H Hs) as (i & e & w & H1 & H2 & H3 & H4 & H5). exists i, e, w.
    split; [assumption|]. split; [assumption|]. split; [assumption|]. split; [assumption|]. unfold answers, fits_effect. rewrite <- effect_run. destruct (q_by q); assumption.
Qed.
Lemma serve_stepped g k s A attested ok rnd from no x j n' a : gall g -> unclashed (map strip (g_past g)) -> lookup k (g_now g) = Some (s, A) ->
  incl (g_seen g) F -> (forall k q x, saw g k (Asked q x) -> within Fm x) ->
  nth_error (g_fwd g) j = Some (from, (no, x)) -> serve D min_voting attested ok rnd x s = inr (ORequest ok rnd x) ->
  rstep sz hmac (c_node s) (ORequest ok rnd x) = Ret (n', a) ->
  stepped g k s A (set_node D n' s) (regrow A (n_log n')) (a_sent a) []
    [(from, (no, match a_loc a with Some (l, RE_OK) => FLocated l | Some (_, er) => FError (rerr_code er) | None => FError 0 end))] [] None.
Proof.
  intros HI Hun El HF Hnm Hj _ Hr. apply nth_error_In in Hj. destruct (q_fwd g HI _ _ _ Hj) as (q & Hq & Hs).
  assert (Hp : rpre okf (net_of g) k (ORequest ok rnd x)).
  { cbn [rpre]. split; [eapply Hnm; eassumption|]. right; right. exists from, q. apply HF. exact Hs. }
  assert (Hl : lookup k (w_now (net_of g)) = Some (c_node s, A)) by (unfold net_of; cbn [w_now]; rewrite strip_lookup, El; reflexivity).
  destruct (raft_move sz hmac M sm L0 Fm HFM Hwf okf okf_none okf_mem (net_of g) k (c_node s) A _ n' a (q_raft g HI) Hun Hp Hl Hr) as [_ _ _ rm_loc].
  constructor; cbn [set_node CoreTx.c_node CoreTx.c_db CoreTx.c_count CoreTx.c_fwd CoreTx.c_watch]; auto; try (intros; contradiction); try lia.
  - right. exists (ORequest ok rnd x), a. split; [assumption|]. split; [assumption|]. split; [reflexivity|]. split; [reflexivity|]. symmetry. eapply not_taken; [|exact Hr]. discriminate.
  - intros i e eff. split; [intros []|intros [X _]; discriminate].
  - intros to no' l [H|[]]. injection H as <- <- H. exists x. split; [assumption|]. destruct (a_loc a) as [[l' er]|]; [|discriminate].
    destruct er; try discriminate. injection H as <-. destruct rm_loc as (ok' & rnd' & x' & X & Hn). injection X as <- <- <-. exact Hn.
Qed.
Lemma change_stepped g k s A ok rnd gr n' a : lookup k (g_now g) = Some (s, A) -> within Fm (IMember gr) ->
  rstep sz hmac (c_node s) (ORequest ok rnd (IMember gr)) = Ret (n', a) ->
  stepped g k s A (set_node D n' s) (regrow A (n_log n')) (a_sent a) [] [] [] None.
Proof.
  intros El Hw Hr.
  constructor; cbn [set_node CoreTx.c_node CoreTx.c_db CoreTx.c_count CoreTx.c_fwd CoreTx.c_watch]; auto; try (intros; contradiction); try lia.
  - right. exists (ORequest ok rnd (IMember gr)), a. split; [cbn [rpre]; split; [exact Hw|eauto]|]. split; [assumption|]. split; [reflexivity|]. split; [reflexivity|].
    symmetry. eapply not_taken; [|exact Hr]. discriminate.
  - intros i e eff. split; [intros []|intros [X _]; discriminate].
Qed.
Lemma refuse_stepped g k s A from no code : lookup k (g_now g) = Some (s, A) ->
  stepped g k s A s A [] [] [(from, (no, FError code))] [] None.
Proof.
  intros El. constructor; auto; try (intros; contradiction); try lia.
  - intros i e eff. split; [intros []|intros [X _]; discriminate].
  - intros to no' l [H|[]]. discriminate.
Qed.
Notation gstep := (gstep sz hmac D E apply respond min_voting).
Notation grun := (grun sz hmac D E apply respond min_voting).
Hypothesis HFm : forall k q x, In (k, Asked q x) F -> within Fm x.

Lemma run_core_inv k o g : gall g -> unclashed (map strip (g_past g)) ->
  match o with CWrite _ _ _ _ _ _ => True | _ => copre g k o end ->
  incl (g_seen (run_core sz hmac D E apply respond min_voting k o g)) F -> gall (run_core sz hmac D E apply respond min_voting k o g).
Proof.
  intros HI Hun Hp HF. destruct (run_core_move k o g) as [->|(s & A & s' & r & El & Ec & X)]; [assumption|]. rewrite X in *.
  assert (HF2 : forall x, In x (seen_in D E apply s o r) -> In (k, x) F).
  { intros x Hx. apply HF. cbn [Group.move Group.g_seen]. apply in_or_app. right. apply in_map_iff. eauto. }
  eapply move_inv; [assumption|assumption|exact El|]. apply core_stepped; auto.
  destruct o as [tx by_ x ok rnd b| | | | |]; auto. cbn [copre]. apply (HFm k (Req (c_count s + 1) tx by_)). apply HF2. apply seen_in_asked. exists tx, by_, ok, rnd, b. auto.
Qed.
Lemma serve_is attested ok rnd x (s : core) o : serve D min_voting attested ok rnd x s = inr o -> o = ORequest ok rnd x.
Proof. unfold serve. destruct (negb _); [discriminate|]. destruct (_ <? _); [discriminate|]. destruct attested; [|discriminate]. intros X. cbn in X. now injection X as <-. Qed.
(* a change that is asked for is one to a membership in Fm *)
Definition change_in (ev : gevent) : Prop := match ev with GChange _ _ _ _ gr => within Fm (IMember gr) | _ => True end.
Lemma gstep_inv g ev : gall g -> unclashed (map strip (g_past g)) -> change_in ev -> incl (g_seen (gstep g ev)) F -> gall (gstep g ev).
Proof.
  intros HI Hun Hch HF. destruct ev as [k o|k j ok1 ok2 rnd|k j attested ok rnd|k j|k attested ok rnd gr|k j]; cbn [Group.gstep] in *.
  - destruct o as [tx by_ x ok rnd b|no an|o|ok|c|c]; try (apply run_core_inv; auto; exact I).
    + destruct an as [code| |]; try assumption. destruct (_ || _)%bool; [|assumption]. apply run_core_inv; auto; exact I.
    + destruct o; try assumption; apply run_core_inv; auto; exact I.
  - destruct (nth_error (g_soup g) j) as [[from [to m]]|] eqn:Ej; [|assumption].
    destruct (match to with Some p => beq p k | None => _ end) eqn:Ed; [|assumption]. apply run_core_inv; auto. cbn [copre]. exists to.
    split; [eapply nth_error_In; eassumption|]. intros p ->. now apply beq_eq.
  - destruct (nth_error (g_fwd g) j) as [[from [no x]]|] eqn:Ej; [|assumption]. unfold run_serve in *.
    destruct (lookup k (g_now g)) as [[s A]|] eqn:El; [|assumption]. destruct (serve D min_voting attested ok rnd x s) as [code|o] eqn:Es; [|assert (o = ORequest ok rnd x) as -> by exact (serve_is _ _ _ _ _ _ Es)].
    2:{
      destruct (rstep sz hmac (c_node s) (ORequest ok rnd x)) as [[n' a]|] eqn:Er; [|assumption]. cbv zeta in *.
      assert (HFg : incl (g_seen g) F). { intros y Hy. apply HF. cbn [Group.move Group.g_seen]. apply in_or_app. auto. }
      eapply move_inv; [assumption|assumption|exact El|]. eapply serve_stepped; try eassumption.
      intros k1 q1 x1 H1. apply (HFm k1 q1). apply HFg. exact H1. }
    eapply move_inv; [assumption|assumption|exact El|]. now apply refuse_stepped.
  - destruct (nth_error (g_ans g) j) as [[to [no a]]|] eqn:Ej; [|assumption]. destruct (beq to k) eqn:Eb; [|assumption]. apply beq_eq in Eb. subst to.
    apply run_core_inv; auto. cbn [copre]. destruct a; auto. eapply nth_error_In; eassumption.
  - unfold run_change in *. destruct (lookup k (g_now g)) as [[s A]|] eqn:El; [|assumption]. destruct (_ && _)%bool; [|assumption].
    destruct (rstep _ _ _ _) as [[n' a]|] eqn:Er; [|assumption]. eapply move_inv; [assumption|assumption|exact El|]. eapply change_stepped; eassumption.
  - destruct (nth_error (g_past g) j) as [[k' x]|] eqn:Ej; [|assumption]. destruct (beq k' k) eqn:Eb; [|assumption]. apply beq_eq in Eb. subst k'.
    apply nth_error_In in Ej. destruct x as [s A].
    assert (Hr : forall k1, ~ In k1 (pins k (g_rolled g)) -> ~ In k1 (g_rolled g) /\ k1 <> k).
    { intros k1 H. rewrite pins_In in H. tauto. }
    assert (Hl : forall k1 t B, k1 <> k -> lookup k1 (put k (s, A) (g_now g)) = Some (t, B) -> lookup k1 (g_now g) = Some (t, B)).
    { intros k1 t B Hne H. now rewrite lookup_put_other in H. }
    constructor; cbn [Group.g_now Group.g_past Group.g_soup Group.g_fwd Group.g_ans Group.g_seen Group.g_rolled].
    + unfold net_of; cbn [Group.g_now Group.g_past Group.g_soup Group.g_rolled]. pose proof (strip_put k s A (g_now g)) as X. unfold gstate in X |- *. rewrite X. apply ginv_back; [exact (q_raft g HI)|]. now apply strip_in.
    + intros k1 x H. destruct (list_eq_dec N.eq_dec k1 k) as [->|Hne].
      * rewrite lookup_put_same in H. injection H as <-. assumption.
      * rewrite lookup_put_other in H by assumption. now apply (q_now g HI).
    + exact (q_db g HI).
    + exact (q_took g HI).
    + exact (q_fwd g HI).
    + exact (q_ans g HI).
    + intros k1 t B q x H1 H2 H3. destruct (Hr k1 H1) as [H4 H5]. eapply (q_cnt g HI); eauto.
    + intros k1 q1 x1 q2 x2 H1. destruct (Hr k1 H1) as [H4 H5]. now apply (q_uniq g HI).
    + intros k1 t B q H1 H2 H3. destruct (Hr k1 H1) as [H4 H5]. eapply (q_cfwd g HI); eauto.
    + intros k1 t B w H1 H2 H3. destruct (Hr k1 H1) as [H4 H5]. eapply (q_watch g HI); eauto.
    + intros k1 q a H1. destruct (Hr k1 H1) as [H4 H5]. now apply (q_said g HI).
    + exact (q_all g HI).
    + exact (q_told g HI).
    + exact (q_upto g HI).
Qed.
Lemma gstep_grows g ev : incl (g_past g) (g_past (gstep g ev)) /\ incl (g_seen g) (g_seen (gstep g ev)).
Proof.
  assert (Hm : forall k s' A' msgs fwd ans sn, incl (g_past g) (g_past (move k s' A' msgs fwd ans sn g)) /\ incl (g_seen g) (g_seen (move k s' A' msgs fwd ans sn g))).
  { intros. cbn [Group.move Group.g_past Group.g_seen]. split; intros y Hy; apply in_or_app; auto. }
  assert (Hi : incl (g_past g) (g_past g) /\ incl (g_seen g) (g_seen g)) by (split; apply incl_refl).
  assert (Hc : forall k o, incl (g_past g) (g_past (run_core sz hmac D E apply respond min_voting k o g)) /\
                           incl (g_seen g) (g_seen (run_core sz hmac D E apply respond min_voting k o g))).
  { intros k o. destruct (run_core_move k o g) as [->|(s & A & s' & r & _ & _ & ->)]; auto. }
  destruct ev as [k o|k j ok1 ok2 rnd|k j attested ok rnd|k j|k attested ok rnd gr|k j]; cbn [Group.gstep].
  - destruct o as [| no an | o | | |]; auto; [destruct an; auto; destruct (_ || _)%bool|destruct o]; auto.
  - destruct (nth_error _ _) as [[from [to m]]|]; auto. destruct (match to with Some p => _ | None => _ end); auto.
  - destruct (nth_error _ _) as [[from [no x]]|]; auto. unfold run_serve. destruct (lookup k (g_now g)) as [[s A]|]; auto.
    destruct (serve _ _ _ _ _ _ _); auto. destruct (rstep _ _ _ _) as [[n' a]|]; auto. 
  - destruct (nth_error _ _) as [[to [no a]]|]; auto. destruct (beq to k); auto.
  - unfold run_change. destruct (lookup k (g_now g)) as [[s A]|]; auto. destruct (_ && _)%bool; auto. destruct (rstep _ _ _ _) as [[n' a]|]; auto.
  - destruct (nth_error _ _) as [[k' x]|]; auto. destruct (beq k' k); auto.
Qed.
Lemma grun_grows evs : forall g, incl (g_past g) (g_past (grun g evs)) /\ incl (g_seen g) (g_seen (grun g evs)).
Proof.
  induction evs as [|ev evs IH]; intros g; cbn [Group.grun fold_left]; [split; apply incl_refl|].
  destruct (gstep_grows g ev), (IH (gstep g ev)). split; eapply incl_tran; eassumption.
Qed.
Lemma grun_inv evs : forall g, gall g -> gno_clash (grun g evs) -> Forall change_in evs -> incl (g_seen (grun g evs)) F -> gall (grun g evs).
Proof.
  induction evs as [|ev evs IH]; intros g HI Hun Hch HF; cbn [Group.grun fold_left] in *; [assumption|]. inversion Hch as [|? ? Hc1 Hc2]; subst.
  destruct (grun_grows evs (gstep g ev)) as [G1 G2]. destruct (gstep_grows g ev) as [G3 G4]. apply IH; auto. apply gstep_inv; auto.
  - intros k1 n1 A1 k2 n2 A2 H1 H2. apply in_strip in H1 as [s1 [_ H1]]. apply in_strip in H2 as [s2 [_ H2]].
    apply (Hun k1 s1 A1 k2 s2 A2); apply G1, G3; assumption.
  - eapply incl_tran; eassumption.
Qed.
Lemma gstart_inv gid xs g : chained hmac L0 -> NoDup (map s_id xs) -> incl (m_voting M) (map s_id xs) ->
  Forall (fun x => s_drop x = 0%nat \/ (s_drop x < length L0)%nat) xs ->
  gstart sz hmac D E gid M sm L0 db0 xs = Ret g -> gall g.
Proof.
  intros Hch Hnd Hall Hd Eg. unfold gstart in Eg. apply bind_inv in Eg as [p [E1 Eg]]. injection Eg as <-.
  set (f := fun kv : bytes * rstate => (fst kv, (new_core D (fst (snd kv)) db0 true, snd (snd kv)))).
  assert (Hsf : forall m : list (bytes * rstate), map strip (map f m) = m).
  { induction m as [|[k [n A]] m IH]; [reflexivity|]. cbn [map]. rewrite IH. reflexivity. }
  assert (Hsp : map strip (fold_right (fun kv m => put (fst kv) (snd kv) m) [] (map f p)) = fold_right (fun kv m => put (fst kv) (snd kv) m) [] p).
  { clear. induction p as [|[k [n A]] p IH]; [reflexivity|]. cbn [map]. change (f (k, (n, A))) with (k, (new_core D n db0 true, A)). cbn [fold_right fst snd]. rewrite strip_put. rewrite IH. reflexivity. }
  assert (Hget : forall k x, lookup k (fold_right (fun kv m => put (fst kv) (snd kv) m) [] (map f p)) = Some x -> In (k, x) (map f p)).
  { intros k x. generalize (map f p). clear. intros p. induction p as [|[j y] p IH]; cbn [fold_right fst snd]; [discriminate|].
    destruct (list_eq_dec N.eq_dec k j) as [->|Hne].
    - rewrite lookup_put_same. intros H; injection H as ->. now left.
    - rewrite lookup_put_other by assumption. right; auto. }
  constructor; unfold gwas, saw; cbn [Group.g_now Group.g_past Group.g_soup Group.g_fwd Group.g_ans Group.g_seen Group.g_rolled]; try (intros; contradiction).
  - unfold net_of; cbn [Group.g_now Group.g_past Group.g_soup Group.g_rolled]. match goal with |- ginv ?n =>
      replace n with (Net (fold_right (fun kv m => put (fst kv) (snd kv) m) [] p) p [] [] []) by (symmetry; f_equal; [exact Hsp|exact (Hsf p)]) end.
    apply (start_inv sz hmac M sm L0 Fm HFM Hwf Hch okf okf_none okf_mem gid xs); auto. unfold start. now rewrite E1.
  - exact Hget.
  - intros k s A Hin. apply in_map_iff in Hin as [[k' [n A']] [X Hin]]. unfold f in X; cbn [fst snd] in X. injection X as <- <- <-.
    destruct (seated_in sz hmac M sm L0 gid xs p E1) as [_ Hs]. destruct (Hs _ _ _ Hin) as (x & Hx & -> & En & ->).
    rewrite Forall_forall in Hd. destruct (seat_first sz hmac M sm L0 Fm HFM Hwf Hch okf okf_mem x gid n (Hd x Hx) En) as (H1 & H2 & H3).
    cbn [CoreTx.c_node CoreTx.c_db new_core]. rewrite H3. split; [lia|]. unfold after.
    rewrite <- (prefix_upto_eq (llen L0) _ _ H2) by lia. rewrite upto_all by lia. now rewrite skipn_all.
  - intros k s A q _ Hl Hq. apply Hget in Hl. apply in_map_iff in Hl as [[k' [n A']] [X Hl]]. unfold f in X; cbn [fst snd] in X. injection X as <- <- <-. contradiction.
  - intros k s A w _ Hl Hw. apply Hget in Hl. apply in_map_iff in Hl as [[k' [n A']] [X Hl]]. unfold f in X; cbn [fst snd] in X. injection X as <- <- <-. contradiction.
  - intros k s A j Hin H1 H2. apply in_map_iff in Hin as [[k' [n A']] [X Hin]]. unfold f in X; cbn [fst snd] in X. injection X as <- <- <-.
    destruct (seated_in sz hmac M sm L0 gid xs p E1) as [_ Hs]. destruct (Hs _ _ _ Hin) as (x & Hx & -> & En & ->).
    rewrite Forall_forall in Hd. destruct (seat_first sz hmac M sm L0 Fm HFM Hwf Hch okf okf_mem x gid n (Hd x Hx) En) as (_ & _ & H3).
    cbn [CoreTx.c_node new_core] in H2. lia.
Qed.
End Group.

(* --- conclusions --------------------------------------------------------------------- *)
Lemma longest {A} (l : list (list A)) : l <> [] -> (forall a b, In a l -> In b l -> prefix a b \/ prefix b a) ->
  exists R, In R l /\ forall a, In a l -> prefix a R.
Proof.
  induction l as [|x l IH]; [congruence|]. intros _ H. destruct l as [|y l].
  - exists x. split; [now left|]. intros a [<-|[]]. apply prefix_refl.
  - destruct IH as [R [H1 H2]]; [discriminate|intros a b Ha Hb; apply H; now right|].
    destruct (H x R (or_introl eq_refl) (or_intror H1)) as [Hx|Hx].
    + exists R. split; [now right|]. intros a [<-|Ha]; auto.
    + exists x. split; [now left|]. intros a [<-|Ha]; [apply prefix_refl|]. eapply prefix_trans; [apply H2; assumption|assumption].
Qed.
Section End_.
Variable sz : sizes.
Variable hmac : bytes -> bytes -> bytes.
Context {D E : Type}.
Variable apply : D -> bytes -> D * option E.
Variable respond : N -> E -> option bytes.
Variable min_voting : N.
Notation grun := (grun sz hmac D E apply respond min_voting).
Notation gstep := (gstep sz hmac D E apply respond min_voting).
Notation c_node := (c_node D).

Lemma asked_step g ev k q x : saw (gstep g ev) k (Asked E q x) ->
  saw g k (Asked E q x) \/ exists tx by_ ok rnd b, ev = GCall k (CWrite tx by_ x ok rnd b).
Proof.
  assert (Hc : forall k1 o, saw (run_core sz hmac D E apply respond min_voting k1 o g) k (Asked E q x) ->
    saw g k (Asked E q x) \/ (k1 = k /\ exists tx by_ ok rnd b, o = CWrite tx by_ x ok rnd b)).
  { intros k1 o H. destruct (run_core_move sz hmac D E apply respond min_voting k1 o g) as [Y|(s & A & s' & r & _ & _ & Y)]; rewrite Y in H; [auto|].
    apply saw_move in H as [H|[-> H]]; [auto|]. right. split; [reflexivity|]. apply seen_in_asked in H as (tx & by_ & ok & rnd & b & -> & _). eauto 6. }
  destruct ev as [k1 o|k1 j ok1 ok2 rnd|k1 j attested ok rnd|k1 j|k1 attested ok rnd gr|k1 j]; cbn [Group.gstep].
  - assert (Hd : saw (run_core sz hmac D E apply respond min_voting k1 o g) k (Asked E q x) -> saw g k (Asked E q x) \/
       (exists tx by_ ok rnd b, GCall k1 o = GCall k (CWrite tx by_ x ok rnd b))).
    { intros H. apply Hc in H as [H|[-> (tx & by_ & ok & rnd & b & ->)]]; [auto|]. right. eauto 6. }
    destruct o as [| no an | o | | |]; auto; [destruct an; auto; destruct (_ || _)%bool|destruct o]; auto.
  - destruct (nth_error _ _) as [[from [to m]]|]; auto. destruct (match to with Some p => _ | None => _ end); auto.
    intros H. apply Hc in H as [H|[_ (tx & by_ & ok & rnd' & b & X)]]; [auto|discriminate].
  - destruct (nth_error _ _) as [[from [no x1]]|]; auto. unfold run_serve. destruct (lookup k1 _) as [[s A]|]; auto.
    destruct (serve _ _ _ _ _ _ _); [|destruct (rstep _ _ _ _) as [[n' a]|]; auto]; intros H; apply saw_move in H as [H|[_ []]]; auto.
  - destruct (nth_error _ _) as [[to [no a]]|]; auto. destruct (beq to k1); auto.
    intros H. apply Hc in H as [H|[_ (tx & by_ & ok & rnd' & b & X)]]; [auto|discriminate].
  - unfold run_change. destruct (lookup k1 _) as [[s A]|]; auto. destruct (_ && _)%bool; auto. destruct (rstep _ _ _ _) as [[n' a]|]; auto.
    intros H; apply saw_move in H as [H|[_ []]]; auto.
  - destruct (nth_error _ _) as [[k' x1]|]; auto. destruct (beq k' k1); auto.
Qed.
Lemma asked_run evs : forall g k q x, saw (grun g evs) k (Asked E q x) ->
  saw g k (Asked E q x) \/ exists tx by_ ok rnd b, In (GCall k (CWrite tx by_ x ok rnd b)) evs.
Proof.
  induction evs as [|ev evs IH]; intros g k q x H; cbn [Group.grun fold_left] in H; [auto|].
  destruct (IH _ _ _ _ H) as [H1|(tx & by_ & ok & rnd & b & H1)].
  - destruct (asked_step g ev k q x H1) as [H2|(tx & by_ & ok & rnd & b & ->)]; [auto|]. right. exists tx, by_, ok, rnd, b. now left.
  - right. exists tx, by_, ok, rnd, b. now right.
Qed.
Variable M : members.
Variable sm : N.
Variable L0 : list entry.
Variable db0 : D.
Lemma changes_parts (F0 : members -> Prop) evs : wf_members M -> F0 M -> overlapping sm F0 ->
  (forall ev gr m, In ev evs -> asks_change ev gr -> from_proto gr = (m, M_OK) -> F0 m) ->
  wfF F0 M /\ (forall m, wfF F0 m -> wf_members m) /\ overlapping sm (wfF F0) /\ Forall (change_in (wfF F0)) evs /\
  (forall tx by_ x ok rnd b k, In (GCall k (CWrite tx by_ x ok rnd b)) evs -> within (wfF F0) x).
Proof.
  intros H1 HF0 Hov Hask. split; [split; assumption|]. split; [now intros m []|]. split; [intros a b q1 q2 [A _] [B _]; now apply Hov|]. split.
  - apply Forall_forall. intros ev Hin. destruct ev; cbn [change_in]; auto. intros m Em.
    split; [eapply Hask; [exact Hin|left; eauto 6|exact Em]|now apply from_proto_wf in Em].
  - intros tx by_ x ok rnd b k Hin. destruct x; cbn [within]; auto. intros m Em.
    split; [eapply Hask; [exact Hin|right; eauto 8|exact Em]|now apply from_proto_wf in Em].
Qed.
Lemma asked_in Fm gid xs g0 evs : gstart sz hmac D E gid M sm L0 db0 xs = Ret g0 ->
  (forall tx by_ x ok rnd b k, In (GCall k (CWrite tx by_ x ok rnd b)) evs -> within Fm x) ->
  forall k q x, In (k, Asked E q x) (g_seen D E (grun g0 evs)) -> within Fm x.
Proof.
  intros Eg Hw k q x H. assert (Hs0 : g_seen D E g0 = []).
  { unfold gstart in Eg. apply bind_inv in Eg as [p [E1 Eg]]. injection Eg as <-. reflexivity. }
  destruct (asked_run evs g0 k q x H) as [H8|(tx & by_ & ok & rnd & b & H8)]; [unfold saw in H8; rewrite Hs0 in H8; contradiction|]. eauto.
Qed.
(* those asked for suffice *)
Lemma changes_asked evs : gchanges_overlap M sm evs ->
  exists F : members -> Prop, F M /\ overlapping sm F /\
    (forall ev gr m, In ev evs -> asks_change ev gr -> from_proto gr = (m, M_OK) -> F m) /\ (forall m, F m -> m = M \/ asked_for evs m).
Proof.
  intros (F & H1 & H2 & H3). exists (fun m => F m /\ (m = M \/ asked_for evs m)). split; [auto|].
  split; [intros a b q1 q2 [Ha _] [Hb _]; now apply H2|]. split; [|now intros m []].
  intros ev gr m Hin Ha Em. split; [eauto|]. right. exists ev, gr. auto.
Qed.
(* what the memberships in Fm have in common *)
Definition overlap_from (Fm : members -> Prop) : Prop := Fm M /\ (forall m, Fm m -> wf_members m) /\ overlapping sm Fm.
Lemma reached_all evs g : group_reached sz hmac apply respond min_voting M sm L0 db0 evs g -> gchanges_overlap M sm evs -> gno_clash g ->
  g_past D E g <> [] /\ chained hmac L0 /\ exists Fm, (overlap_from Fm /\ forall m, Fm m -> m = M \/ asked_for evs m) /\
    gall hmac D E apply respond sm L0 db0 Fm (g_seen D E g) g.
Proof.
  intros (gid & xs & g0 & (H1 & H2 & H3 & H4 & H5 & H6 & H7) & Eg & ->) Hco Hun.
  destruct (changes_asked evs Hco) as (F0 & HF0 & Hov & Hask & Hall).
  destruct (changes_parts F0 evs H1 HF0 Hov Hask) as (HM & Hw & Ho & Hch & Hwr).
  assert (Hs0 : g_past D E g0 <> []).
  { unfold gstart in Eg. apply bind_inv in Eg as [p [E1 Eg]]. injection Eg as <-. cbn [Group.g_seen Group.g_past].
    destruct (seated_in sz hmac M sm L0 gid xs p E1) as [Hids _]. destruct p; [|discriminate]. destruct xs; [|discriminate]. exfalso.
    destruct (m_voting M) as [|v vs] eqn:Ev; [unfold psize in H2; cbn in H2; lia|]. destruct (H6 v); now left. }
  split; [|split; [assumption|]].
  - intros X. destruct (grun_grows sz hmac D E apply respond min_voting evs g0) as [G _]. rewrite X in G. destruct (g_past D E g0) as [|y l]; [congruence|].
    destruct (G y); now left.
  - exists (wfF F0). split; [split; [repeat (split; [assumption|]); assumption|now intros m [Hm _]; apply Hall]|].
    eapply (grun_inv sz hmac D E apply respond min_voting M); try eassumption; [|eapply (gstart_inv sz hmac D E apply respond M); eassumption|apply incl_refl].
    eapply asked_in; eassumption.
Qed.
Lemma fixed_gchanges evs : sm < psize (m_voting M) -> psize (m_voting M) < 2 ^ 63 -> gfixed evs -> gchanges_overlap M sm evs.
Proof.
  intros H1 H2 Hf. exists (eq M). split; [reflexivity|]. split; [now apply fixed_overlap|]. intros ev gr m Hin Ha. destruct (Hf ev gr Hin Ha).
Qed.
Lemma rest_nth (rest : list entry) p e : nth_entry (L0 ++ rest) (llen L0 + 1 + N.of_nat p) = Some e -> nth_error rest p = Some e.
Proof.
  unfold nth_entry, llen. destruct (_ =? 0) eqn:E0; [lia|]. rewrite nth_error_app2 by lia. intros <-. f_equal. lia.
Qed.
Lemma one_database evs g : group_reached sz hmac apply respond min_voting M sm L0 db0 evs g -> gchanges_overlap M sm evs -> gno_clash g ->
  psize (g_rolled D E g) <= sm ->
  exists rest,
    (forall k i e eff, saw g k (Took E i e eff) -> exists p, i = llen L0 + 1 + N.of_nat p /\ runs_at apply db0 rest p e eff) /\
    (forall k s A, gwas g k s A -> exists j, (j <= length rest)%nat /\ n_applied (c_node s) = llen L0 + N.of_nat j /\ c_db D s = fst (run_all apply db0 (firstn j rest))) /\
    (forall e, In e rest -> e_inner e = INone \/ (exists k q, saw g k (Asked E q (e_inner e))) \/
       exists gr, e_inner e = IMember gr /\ forall m, from_proto gr = (m, M_OK) -> m = M \/ asked_for evs m) /\
    (forall k q a, saw g k (Said E q a) -> success a -> ~ In k (g_rolled D E g) ->
       exists x p e eff, saw g k (Asked E q x) /\ saw g k (Took E (llen L0 + 1 + N.of_nat p) e eff) /\ runs_at apply db0 rest p e eff /\ e_inner e = x /\ fits_effect respond q a eff) /\
    (forall k q a, saw g k (Said E q a) -> success a ->
       exists p e eff, saw g k (Took E (llen L0 + 1 + N.of_nat p) e eff) /\ runs_at apply db0 rest p e eff /\ fits_effect respond q a eff).
Proof.
  intros Hg Hf Hun Hr. destruct (reached_all evs g Hg Hf Hun) as (Hne & Hch & Fm & ((HM & Hw & Ho) & Has) & HI). set (F := g_seen D E g) in *.
  pose proof (q_raft _ _ _ _ _ _ _ _ _ _ _ HI) as HG.
  destruct (longest (map (fun kv => upto (n_commit (c_node (fst (snd kv)))) (snd (snd kv))) (g_past D E g))) as [R [HR HRl]].
  { intros X. apply Hne. now apply map_eq_nil in X. }
  { intros a b Ha Hb. apply in_map_iff in Ha as [[k1 [s1 A1]] [<- Ha]]. apply in_map_iff in Hb as [[k2 [s2 A2]] [<- Hb]]. cbn [fst snd].
    eapply (commits_agree hmac M sm L0 Fm HM Hw Ho _ (okf_mem E Fm F) (net_of g)); [exact HG|exact Hr|apply strip_in; exact Ha|apply strip_in; exact Hb]. }
  assert (Hpre : forall k s A, gwas g k s A -> prefix (upto (n_commit (c_node s)) A) R).
  { intros k s A H. apply HRl. apply in_map_iff. exists (k, (s, A)). auto. }
  apply in_map_iff in HR as [[k0 [s0 A0]] [HR Hin0]]. cbn [fst snd] in HR.
  destruct (gi_past _ _ _ _ _ _ HG k0 (c_node s0) A0 (strip_in _ _ _ _ Hin0)) as [HR0 _].
  destruct (ri_cm _ _ _ _ _ _ _ _ _ _ _ HR0) as [Hc1 [Hc2 _]]. destruct (ri_k _ _ _ _ _ _ _ _ _ _ _ HR0) as [HL0 Hok].
  assert (HLR : prefix L0 R).
  { rewrite <- HR. pose proof (prefix_le _ _ (n_commit (c_node s0)) HL0) as X. rewrite upto_all in X by lia. exact X. }
  destruct HLR as [rest HLR]. exists rest.
  assert (Hup : forall k s A i, gwas g k s A -> i <= n_commit (c_node s) -> i <= llen A /\ upto i A = upto i (L0 ++ rest)).
  { intros k s A i H Hi. destruct (gi_past _ _ _ _ _ _ HG k (c_node s) A (strip_in _ _ _ _ H)) as [H1 _].
    destruct (ri_cm _ _ _ _ _ _ _ _ _ _ _ H1) as [Hx _]. split; [lia|]. rewrite <- HLR.
    rewrite <- (prefix_upto_eq i _ _ (Hpre k s A H)) by (rewrite upto_len; lia). symmetry. apply upto_upto. exact Hi. }
  assert (Haft : forall j, skipn (length L0) (upto (llen L0 + N.of_nat j) (L0 ++ rest)) = firstn j rest).
  { intros j. unfold upto, llen. replace (N.to_nat (N.of_nat (length L0) + N.of_nat j)) with (length L0 + j)%nat by lia.
    rewrite firstn_app_2, skipn_app, skipn_all, Nat.sub_diag. reflexivity. }
  assert (Htook : forall k i e eff, saw g k (Took E i e eff) -> exists p, i = llen L0 + 1 + N.of_nat p /\ runs_at apply db0 rest p e eff).
  { intros k i e eff H. destruct (q_took _ _ _ _ _ _ _ _ _ _ _ HI k i e eff H) as (s & A & H1 & H2 & H3 & H4 & H5).
    exists (N.to_nat (i - llen L0 - 1)). set (p := N.to_nat (i - llen L0 - 1)). assert (Hi : i = llen L0 + 1 + N.of_nat p) by (unfold p; lia).
    split; [exact Hi|]. destruct (Hup k s A i H1 H3) as [H6 H7].
    assert (H8 : nth_error rest p = Some e). { apply rest_nth. rewrite <- Hi. rewrite <- H4. symmetry. eapply upto_nth; [exact H7|lia]. }
    split; [assumption|]. rewrite (run_all_nth apply rest db0 p e H8). rewrite H5. do 3 f_equal. unfold after.
    replace (i - 1) with (llen L0 + N.of_nat p) by lia. rewrite (upto_mono (llen L0 + N.of_nat p) i A (L0 ++ rest)) by (lia || assumption). now rewrite Haft. }
  split; [assumption|]. split; [|split; [|split]].
  - intros k s A H. destruct (q_db _ _ _ _ _ _ _ _ _ _ _ HI k s A H) as [H1 H2]. exists (N.to_nat (n_applied (c_node s) - llen L0)).
    destruct (gi_past _ _ _ _ _ _ HG k (c_node s) A (strip_in _ _ _ _ H)) as [H3 _]. pose proof (ri_ac _ _ _ _ _ _ _ _ _ _ _ H3) as Hac.
    destruct (Hup k s A (n_applied (c_node s)) H Hac) as [H4 H5].
    assert (Hrl : n_applied (c_node s) <= llen (L0 ++ rest)).
    { pose proof (f_equal llen H5) as X. rewrite (upto_len _ _ H4) in X. unfold upto, llen in X. rewrite firstn_length in X. unfold llen. lia. }
    rewrite llen_app in Hrl. split; [unfold llen in *; lia|]. split; [lia|]. rewrite H2. unfold after. rewrite H5.
    rewrite <- Haft. do 4 f_equal. lia.
  - intros e He. apply In_nth_error in He as [p He].
    assert (H8 : nth_entry A0 (llen L0 + 1 + N.of_nat p) = Some e).
    { eapply prefix_nth; [apply (prefix_upto (n_commit (c_node s0)))|]. rewrite HR, HLR. unfold nth_entry, llen. destruct (_ =? 0) eqn:E0; [lia|].
      rewrite nth_error_app2 by lia. rewrite <- He. f_equal. lia. }
    destruct (Hok (llen L0 + 1 + N.of_nat p) e ltac:(lia) H8) as [Hwi [H|[[gr H]|(k & q & H)]]]; [auto| |].
    + right. right. exists gr. split; [exact H|]. intros m Em. apply Has. rewrite H in Hwi. exact (Hwi m Em).
    + right. left. exists k, q. exact H.
  - intros k q a H Hs Hnr. destruct (q_said _ _ _ _ _ _ _ _ _ _ _ HI k q a Hnr H Hs) as (x & i & e & eff & H1 & H2 & H3 & H4).
    destruct (Htook k i e eff H2) as (p & Hi & H5). exists x, p, e, eff. split; [assumption|]. rewrite <- Hi. auto.
  - intros k q a H Hs. destruct (q_told _ _ _ _ _ _ _ _ _ _ _ HI k q a H Hs) as (i & e & eff & H2 & H4).
    destruct (Htook k i e eff H2) as (p & Hi & H5). exists p, e, eff. rewrite <- Hi. auto.
Qed.
(* a replica that ran an entry ran all before it *)
Lemma took_before evs g k i e eff j : group_reached sz hmac apply respond min_voting M sm L0 db0 evs g -> gchanges_overlap M sm evs -> gno_clash g ->
  saw g k (Took E i e eff) -> llen L0 < j -> j <= i -> exists e' eff', saw g k (Took E j e' eff').
Proof.
  intros Hg Hf Hun H1 H2 H3. destruct (reached_all evs g Hg Hf Hun) as (_ & _ & Fm & _ & HI).
  destruct (q_upto _ _ _ _ _ _ _ _ _ _ _ HI k i e eff H1) as (s & A & H4 & H5). apply (q_all _ _ _ _ _ _ _ _ _ _ _ HI k s A j H4 H2). lia.
Qed.
End End_.
