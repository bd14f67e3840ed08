(* Proofs about requests that go through the replicated log. *)
From Verif Require Import CoreTxSpec RaftChain RaftNode RaftRun.
From Coq Require Import Permutation.

Definition sn (rs : list cres) : list N := map (fun a => q_no (fst a)) (says rs).
Definition numbers (k : N) : list N := map N.of_nat (seq 1 (N.to_nat k)).

Lemma numbers_succ k : numbers (k + 1) = numbers k ++ [k + 1].
Proof.
  unfold numbers. replace (N.to_nat (k + 1)) with (S (N.to_nat k)) by lia. rewrite seq_S, map_app. cbn. do 2 f_equal. lia.
Qed.
Lemma numbers_in k no : In no (numbers k) <-> 1 <= no <= k.
Proof.
  unfold numbers. rewrite in_map_iff. split.
  - intros [x [<- Hx]]. apply in_seq in Hx. lia.
  - intros H. exists (N.to_nat no). split; [lia|]. apply in_seq. lia.
Qed.
Lemma numbers_nodup k : NoDup (numbers k).
Proof. unfold numbers. apply FinFun.Injective_map_NoDup; [intros x y; lia|apply seq_NoDup]. Qed.
Lemma sn_app a b : sn (a ++ b) = sn a ++ sn b.
Proof. unfold sn, says. now rewrite flat_map_app, map_app. Qed.
Lemma nd_l {A} (a b : list A) : NoDup (a ++ b) -> NoDup a.
Proof.
  induction a as [|x a IH]; cbn; intros H; [constructor|]. apply NoDup_cons_iff in H as [H1 H2].
  constructor; [intros Hx; apply H1, in_or_app; auto|auto].
Qed.
Lemma nd_r {A} (a b : list A) : NoDup (a ++ b) -> NoDup b.
Proof. induction a as [|x a IH]; cbn; intros H; [assumption|]. apply NoDup_cons_iff in H as [H1 H2]. auto. Qed.
Lemma filter_perm {A} (f : A -> bool) l : Permutation (filter f l ++ filter (fun x => negb (f x)) l) l.
Proof.
  induction l as [|x l IH]; [reflexivity|]. cbn. destruct (f x); cbn; [now constructor|].
  etransitivity; [symmetry; apply Permutation_middle|]. now constructor.
Qed.
Lemma nodup_filter_one (l : list req) q no : NoDup (map q_no l) -> find (fun q => q_no q =? no) l = Some q ->
  filter (fun q => q_no q =? no) l = [q].
Proof.
  induction l as [|x l IH]; cbn; intros Hn Hf; [discriminate|]. apply NoDup_cons_iff in Hn as [N1 N2].
  destruct (N.eqb_spec (q_no x) no) as [Ex|Ex]; [|auto]. injection Hf as <-. f_equal.
  clear IH N2. induction l as [|y l IH]; [reflexivity|]. cbn in *. destruct (N.eqb_spec (q_no y) no); [exfalso; apply N1; left; congruence|].
  apply IH. tauto.
Qed.
Lemma written_more h q x h' : written h q x -> written (h ++ h') q x.
Proof. intros (h1 & ok & rnd & b & h2 & -> & Hn). exists h1, ok, rnd, b, (h2 ++ h'). rewrite <- app_assoc. auto. Qed.
Lemma placed_more rs no l rs' : placed rs no l -> placed (rs ++ rs') no l.
Proof. intros (r & Hr & Hp). exists r. split; [apply in_or_app; auto|assumption]. Qed.
Lemma told_more h no h' : told h no -> told (h ++ h') no.
Proof. intros (l & Hl). exists l. apply in_or_app; auto. Qed.
Lemma says_last rs r : says (rs ++ [r]) = says rs ++ r_said r.
Proof. unfold says. rewrite flat_map_app. cbn. now rewrite app_nil_r. Qed.
Lemma sn_last rs r : sn (rs ++ [r]) = sn rs ++ map (fun a => q_no (fst a)) (r_said r).
Proof. unfold sn. now rewrite says_last, map_app. Qed.
Lemma count_split (h1 h2 k1 k2 : list cop) a b : h1 ++ a :: h2 = k1 ++ b :: k2 -> is_write a = true -> is_write b = true ->
  count is_write h1 = count is_write k1 -> h1 = k1 /\ a = b.
Proof.
  revert k1. induction h1 as [|x h1 IH]; intros [|y k1] He Ha Hb Hc; cbn in He.
  - injection He as -> _. auto.
  - injection He as -> He. rewrite count_cons, Ha in Hc. change (count is_write []) with 0 in Hc. lia.
  - injection He as -> He. rewrite count_cons, Hb in Hc. change (count is_write []) with 0 in Hc. lia.
  - injection He as -> He. rewrite !count_cons in Hc. destruct (IH k1 He Ha Hb) as [-> ->]; [lia|auto].
Qed.
Lemma written_unique h q x q' x' : written h q x -> written h q' x' -> q_no q = q_no q' -> q = q' /\ x = x'.
Proof.
  intros (h1 & ok & rnd & b & h2 & -> & Hn) (k1 & ok' & rnd' & b' & k2 & He & Hn') Hq.
  destruct (count_split _ _ _ _ _ _ He eq_refl eq_refl) as [_ Ho]; [lia|]. injection Ho as H1 H2 H3 _ _ _. split; [|assumption].
  destruct q, q'; cbn in *; congruence.
Qed.
Lemma written_no h q x : written h q x -> 1 <= q_no q <= count is_write h.
Proof. intros (h1 & ok & rnd & b & h2 & -> & ->). rewrite count_app, count_cons. cbn [is_write]. lia. Qed.
Lemma no_written h no : 1 <= no <= count is_write h -> exists q x, written h q x /\ q_no q = no.
Proof.
  induction h as [|o h IH] using rev_ind; [unfold count; cbn; lia|]. rewrite count_app, count_cons. change (count is_write []) with 0. intros H.
  destruct (N.le_gt_cases no (count is_write h)) as [Hl|Hl].
  - destruct IH as (q & x & Hw & Hq); [lia|]. exists q, x. split; [now apply written_more|assumption].
  - destruct o as [tx by_ x ok rnd b| | | | | ]; cbn [is_write] in H; try lia.
    exists (Req no tx by_), x. split; [|reflexivity]. exists h, ok, rnd, b, []. split; [reflexivity|]. cbn. lia.
Qed.
Lemma answers_count no rs : length (answers no rs) = length (filter (N.eqb no) (sn rs)).
Proof.
  unfold answers, sn. induction (says rs) as [|[q a] l IH]; [reflexivity|]. cbn. rewrite (N.eqb_sym no). destruct (q_no q =? no); cbn; congruence.
Qed.
Lemma answers_nil no rs : answers no rs = [] <-> ~ In no (sn rs).
Proof.
  split.
  - intros H Hin. assert (Hl : length (filter (N.eqb no) (sn rs)) = 0%nat) by now rewrite <- answers_count, H.
    assert (X : In no (filter (N.eqb no) (sn rs))) by (apply filter_In; split; [assumption|apply N.eqb_refl]).
    destruct (filter (N.eqb no) (sn rs)); [contradiction|discriminate].
  - intros H. destruct (answers no rs) as [|a l] eqn:E1; [reflexivity|]. exfalso. apply H.
    assert (Hl : length (filter (N.eqb no) (sn rs)) <> 0%nat) by (rewrite <- answers_count, E1; discriminate).
    destruct (filter (N.eqb no) (sn rs)) as [|z z'] eqn:Ef; [contradiction|].
    assert (X : In z (filter (N.eqb no) (sn rs))) by (rewrite Ef; now left). apply filter_In in X as [X Y]. apply N.eqb_eq in Y. now subst.
Qed.
Lemma nodup_filter_eqb no l : NoDup l -> In no l -> length (filter (N.eqb no) l) = 1%nat.
Proof.
  induction l as [|x l IH]; intros Hn Hi; [contradiction|]. apply NoDup_cons_iff in Hn as [H1 H2]. cbn.
  destruct (N.eqb_spec no x) as [->|Hx].
  - cbn. f_equal. destruct (filter (N.eqb x) l) as [|z z'] eqn:Ef; [reflexivity|exfalso].
    assert (X : In z (filter (N.eqb x) l)) by (rewrite Ef; now left). apply filter_In in X as [X Y]. apply N.eqb_eq in Y. now subst.
  - destruct Hi as [Hi|Hi]; [congruence|auto].
Qed.
Lemma placed_last rs r no l : placed (rs ++ [r]) no l <-> placed rs no l \/ r_placed r = Some (no, l).
Proof.
  unfold placed. split.
  - intros (r' & H1 & H2). apply in_app_or in H1 as [H1|[H1|[]]]; [left; eauto|right; congruence].
  - intros [(r' & H1 & H2)|H]; [exists r'; split; [apply in_or_app; now left|assumption]|exists r; split; [apply in_or_app; right; now left|assumption]].
Qed.

Section Q.
Variable sz : sizes.
Variable hmac : bytes -> bytes -> bytes.
Lemma reached_step n o n' a : reached sz hmac n -> rstep sz hmac n o = Ret (n', a) -> reached sz hmac n'.
Proof.
  intros (n0 & A0 & ops & rs & Hb & E0) Es. exists n0, A0, (ops ++ [o]), (rs ++ [a]). split; [assumption|].
  rewrite exec_app, E0. cbn. now rewrite Es.
Qed.
Lemma applied_step n o n' a : reached sz hmac n -> rstep sz hmac n o = Ret (n', a) ->
  match a_taken a with
  | None => n_applied n' = n_applied n
  | Some (i, e) => o = OTake /\ i = n_applied n + 1 /\ n_applied n' = i /\ exists A, holds (n_log n) A /\ chained hmac A /\ nth_entry A i = Some e
  end.
Proof.
  intros Hr Es. destruct (reached_ok sz hmac n Hr) as [A HA]. destruct (step_ok1 sz hmac n A o n' a HA Es) as (A' & _ & _ & _ & Ht & _).
  destruct (a_taken a) as [[i e]|]; [|apply Ht]. destruct Ht as (H1 & H2 & H3 & H4 & H5 & H6). do 3 (split; [assumption|]).
  exists A. destruct (ok_holds hmac n A HA). auto.
Qed.
Lemma logged_spec n x l : reached sz hmac n -> logged_at sz hmac n x l ->
  is_leader n = true /\ n_applied n < lc_idx l /\ lc_term l = n_term n /\ length (lc_hash l) = 32%nat /\
  lc_hash l = hmac (recent_hash (n_log n)) (tagged x (lc_idx l) (lc_term l)).
Proof.
  intros Hr (ok & rnd & n' & a & Es & Ea). destruct (reached_ok sz hmac n Hr) as [A [HR _]].
  cbn in Es. destruct (log_request sz hmac ok rnd x n) as [[n1 r]|] eqn:El; [|discriminate]. cbn in Es. unfold sent in Es. injection Es as <- <-. cbn in Ea. injection Ea as ->.
  unfold log_request in El.
  match type of El with (match ?c with _ => _ end = _) => destruct c eqn:Ec end; try (injection El; discriminate).
  destruct (client_request sz hmac x n) as [[n2 res]|] eqn:Ecr; [|discriminate]. cbn in El.
  destruct (change_state sz hmac ok rnd n2) as [n3|] eqn:Ecs; [|discriminate]. cbn in El. injection El as <- ->. clear Ecs Ec.
  unfold client_request in Ecr. destruct (n_role n) as [| |fs hb [|]] eqn:Erole; try (injection Ecr; discriminate).
  split; [unfold is_leader; now rewrite Erole|].
  unfold log_append in Ecr. cbn [e_inner e_hash] in Ecr.
  set (en := Entry (n_term n) x (next_hash hmac (n_log n) (n_term n) x)) in *.
  pose proof (ri_st _ _ _ _ _ _ _ _ _ _ _ HR) as Hst. pose proof (ri_al _ _ _ _ _ _ _ _ _ _ _ HR) as Hal.
  assert (Happ : exists l1 n4, append sz en (n_applied n) (n_log n) = Ret (l1, L_OK) /\ l = Loc (n_term n) (last_idx l1) (e_hash en) /\ n4 = n2).
  { destruct x as [|d|g|m]; cbn in Ecr.
    - destruct (append sz en (n_applied n) (n_log n)) as [[l1 []]|]; try discriminate; cbn in Ecr; try (injection Ecr; discriminate). injection Ecr as <- <-. eauto.
    - destruct (append sz en (n_applied n) (n_log n)) as [[l1 []]|]; try discriminate; cbn in Ecr; try (injection Ecr; discriminate). injection Ecr as <- <-. eauto.
    - destruct (from_proto g) as [mm []]; try (injection Ecr; discriminate).
      destruct (append sz en (n_applied n) (n_log n)) as [[l1 []]|]; try discriminate; cbn in Ecr; try (injection Ecr; discriminate).
      destruct (add_uncommitted _ _ _); [|discriminate]. cbn in Ecr. injection Ecr as <- <-. eauto.
    - destruct (append sz en (n_applied n) (n_log n)) as [[l1 []]|]; try discriminate; cbn in Ecr; try (injection Ecr; discriminate). injection Ecr as <- <-. eauto. }
  destruct Happ as (l1 & _ & Happ & -> & _).
  destruct (append_stored sz en (n_log n) (n_applied n) A l1 L_OK Hst Hal Happ) as [Hst' Hok].
  assert (Hlast : last_idx l1 = llen A + 1).
  { rewrite (st_last l1 (n_applied n) (A ++ [en])); [now rewrite llen_app|exact Hst'|rewrite llen_app; lia]. }
  cbn [lc_idx lc_term lc_hash]. rewrite Hlast. split; [lia|]. split; [reflexivity|]. split; [apply Hok; reflexivity|].
  unfold en; cbn [e_hash]. unfold next_hash, next_idx. now rewrite (st_last (n_log n) (n_applied n) A Hst Hal).
Qed.
Lemma same_entry n1 x l A i e : reached sz hmac n1 -> logged_at sz hmac n1 x l -> match x with IMember _ => False | _ => True end ->
  chained hmac A -> nth_entry A i = Some e -> matches i e l ->
  e_inner e = x \/ same_mac hmac (recent_hash (n_log n1), tagged x i (e_term e)) (prev_hash A (N.to_nat (i - 1)), tagged (e_inner e) i (e_term e)).
Proof.
  intros Hr Hl Hx Hc Hn (H1 & H2 & H3). destruct (logged_spec _ _ _ Hr Hl) as (_ & Hi & _ & Hlen & Hh).
  destruct H3 as [H3|H3]; [rewrite H3 in Hlen; discriminate|].
  unfold nth_entry in Hn. destruct (N.eqb_spec i 0) as [|Hi0]; [discriminate|].
  destruct (chained_nth hmac A _ e Hc Hn) as (Hf & _). replace (N.of_nat (N.to_nat (i - 1)) + 1) with i in Hf by lia.
  destruct (inner_dec (e_inner e) x) as [|Hd]; [now left|right]. split.
  - cbn. intros X. injection X as _ X. apply Hd. clear - X Hx.
    destruct x as [|d|g|m], (e_inner e) as [|d'|g'|m']; try contradiction; try reflexivity; try discriminate X; unfold tagged in X; cbn [app] in X;
      injection X as X; repeat apply app_inv_head in X; congruence.
  - cbn. rewrite <- Hf, <- H3, Hh, H1, H2. reflexivity.
Qed.
End Q.

Section P.
Variable sz : sizes.
Variable hmac : bytes -> bytes -> bytes.
Variables D E : Type.
Variable apply : D -> bytes -> D * option E.
Variable respond : N -> E -> option bytes.
Variable min_voting : N.
Notation core := (core D).
Notation cstep := (cstep sz hmac D E apply respond min_voting).
Notation cexec := (exec cstep).
Notation callback := (callback E respond).
Notation callbacks := (callbacks E respond).
Notation c_node := (c_node D). Notation c_db := (c_db D). Notation c_watch := (c_watch D). Notation c_fwd := (c_fwd D).
Notation c_count := (c_count D). Notation c_open := (c_open D). Notation c_part := (c_part D).

(* --- callbacks ------------------------------------------------------------ *)
Lemma callback_req q res o o' a : callback q res o = (o', a) -> fst a = q.
Proof.
  unfold CoreTx.callback. destruct (q_by q); [|intros E1; now injection E1 as <- <-].
  destruct res as [code|[eff|]]; try (intros E1; now injection E1 as <- <-).
  destruct (existsb _ _); [destruct (respond _ _)|]; intros E1; now injection E1 as <- <-.
Qed.
Lemma callbacks_reqs l : forall o o' r, callbacks l o = (o', r) -> map fst r = map fst l.
Proof.
  induction l as [|[q res] l IH]; intros o o' r H; cbn in H; [now injection H as <- <-|].
  destruct (callback q res o) as [o1 a] eqn:E1. destruct (callbacks l o1) as [o2 r2] eqn:E2. injection H as <- <-.
  cbn. f_equal; [now apply callback_req in E1|eauto].
Qed.
(* a good answer comes from a good outcome *)
Lemma callback_success q res o o' a : callback q res o = (o', a) -> success (snd a) ->
  exists eff, res = inr eff /\ o' = o /\
  match q_by q with
  | AHost => snd a = SDone
  | AClient c => In c o /\ exists ef b, eff = Some ef /\ respond c ef = Some b /\ snd a = SData b
  end.
Proof.
  unfold CoreTx.callback. destruct (q_by q) as [c|].
  - destruct res as [code|[eff|]]; try (intros E1; injection E1 as <- <-; cbn; contradiction).
    destruct (existsb (N.eqb c) o) eqn:Ex; [|intros E1; injection E1 as <- <-; cbn; contradiction].
    destruct (respond c eff) as [b|] eqn:Er; intros E1; injection E1 as <- <-; cbn; [|contradiction]. intros _.
    exists (Some eff). split; [reflexivity|]. split; [reflexivity|]. apply existsb_exists in Ex as [c' [Hc Ec]]. apply N.eqb_eq in Ec. subst c'.
    split; [assumption|]. exists eff, b. auto.
  - intros E1. injection E1 as <- <-. destruct res as [code|eff]; cbn; [contradiction|]. eauto.
Qed.
Lemma callbacks_success l : forall o o' r q a, callbacks l o = (o', r) -> In (q, a) r -> success a ->
  exists eff, In (q, inr eff) l /\
  match q_by q with
  | AHost => a = SDone
  | AClient c => In c o /\ exists ef b, eff = Some ef /\ respond c ef = Some b /\ a = SData b
  end.
Proof.
  induction l as [|[q0 res] l IH]; intros o o' r q a H Hin Hs; cbn in H; [injection H as <- <-; contradiction|].
  destruct (callback q0 res o) as [o1 a1] eqn:E1. destruct (callbacks l o1) as [o2 r2] eqn:E2. injection H as <- <-.
  assert (Hsub : incl o1 o).
  { revert E1. unfold CoreTx.callback. destruct (q_by q0) as [c|]; [|intros X; injection X as <- <-; apply incl_refl].
    assert (Hf : incl (filter (fun x => negb (x =? c)) o) o) by (intros z Hz; now apply filter_In in Hz).
    destruct res as [code|[eff|]]; try (intros X; injection X as <- <-; assumption).
    destruct (existsb _ _); [destruct (respond _ _)|]; intros X; injection X as <- <-; auto using incl_refl. }
  destruct Hin as [Hin|Hin].
  - pose proof (callback_req _ _ _ _ _ E1) as Hq. subst a1. cbn in Hq. subst q0.
    destruct (callback_success _ _ _ _ _ E1 Hs) as (eff & -> & -> & Hm). exists eff. split; [now left|]. exact Hm.
  - destruct (IH _ _ _ _ _ E2 Hin Hs) as (eff & H1 & H2). exists eff. split; [now right|]. destruct (q_by q); [|assumption].
    destruct H2 as [H2 H3]. auto.
Qed.
(* once a client is gone it is told nothing but errors *)
Lemma callback_gone q res o o' a c : callback q res o = (o', a) -> ~ In c o -> ~ In c o' /\ (q_by q = AClient c -> failure (snd a)).
Proof.
  intros E1 Hn. split.
  - revert E1. unfold CoreTx.callback. destruct (q_by q) as [c'|]; [|intros X; now injection X as <- <-].
    assert (Hf : ~ In c (filter (fun x => negb (x =? c')) o)) by (intros Hz; now apply filter_In in Hz).
    destruct res as [code|[eff|]]; try (intros X; now injection X as <- <-).
    destruct (existsb _ _); [destruct (respond _ _)|]; intros X; now injection X as <- <-.
  - intros Hq. destruct (snd a) eqn:Ea; [exfalso|exfalso|exact I];
      (destruct (callback_success _ _ _ _ _ E1) as (eff & _ & _ & Hm); [now rewrite Ea|]); rewrite Hq in Hm; tauto.
Qed.
Lemma callback_error q res o o' code c : callback q res o = (o', (q, SError code)) -> q_by q = AClient c -> ~ In c o'.
Proof.
  unfold CoreTx.callback. intros E1 Hq. rewrite Hq in E1.
  assert (Hf : ~ In c (filter (fun x => negb (x =? c)) o)) by (intros Hz; apply filter_In in Hz as [_ Hz]; rewrite N.eqb_refl in Hz; discriminate).
  destruct res as [cd|[eff|]]; try (now injection E1 as <-).
  destruct (existsb _ _); [destruct (respond _ _); [discriminate|]|]; now injection E1 as <-.
Qed.
Lemma callbacks_gone l : forall o o' r c, callbacks l o = (o', r) -> ~ In c o ->
  ~ In c o' /\ forall q a, In (q, a) r -> q_by q = AClient c -> failure a.
Proof.
  induction l as [|[q0 res] l IH]; intros o o' r c H Hn; cbn in H; [injection H as <- <-; split; [assumption|contradiction]|].
  destruct (callback q0 res o) as [o1 a1] eqn:E1. destruct (callbacks l o1) as [o2 r2] eqn:E2. injection H as <- <-.
  destruct (callback_gone _ _ _ _ _ c E1 Hn) as [H1 H2]. destruct (IH _ _ _ c E2 H1) as [H3 H4]. split; [assumption|].
  intros q a [Hin|Hin] Hq; [|eauto]. pose proof (callback_req _ _ _ _ _ E1) as Hr. subst a1. cbn in *. subst q0. auto.
Qed.
Lemma callbacks_error l : forall o o' r code c q x y, callbacks l o = (o', r) -> r = x ++ (q, SError code) :: y -> q_by q = AClient c ->
  ~ In c o' /\ forall q a, In (q, a) y -> q_by q = AClient c -> failure a.
Proof.
  induction l as [|[q0 res] l IH]; intros o o' r code c q x y H Hr Hq; cbn in H; [injection H as <- <-; destruct x; discriminate|].
  destruct (callback q0 res o) as [o1 a1] eqn:E1. destruct (callbacks l o1) as [o2 r2] eqn:E2. injection H as <- <-.
  destruct x as [|z x]; cbn in Hr.
  - injection Hr as -> ->. pose proof (callback_req _ _ _ _ _ E1) as Hr. cbn in Hr. subst q0.
    pose proof (callback_error _ _ _ _ _ _ E1 Hq) as Hg. exact (callbacks_gone _ _ _ _ _ E2 Hg).
  - injection Hr as -> ->. eapply IH; eauto.
Qed.

(* --- who waits ------------------------------------------------------------ *)
Definition wn (s : core) : list N := map q_no (c_fwd s) ++ map (fun w => q_no (w_req w)) (c_watch s).
Lemma waits_wn s no : waits s no <-> In no (wn s).
Proof.
  unfold waits, wn. rewrite in_app_iff, !in_map_iff. split; (intros [[x [H1 H2]]|[x [H1 H2]]]; [left|right]; eauto).
Qed.
Lemma sn_callbacks l o o' r : callbacks l o = (o', r) -> map (fun a => q_no (fst a)) r = map (fun a => q_no (fst a)) l.
Proof. intros H. apply callbacks_reqs in H. rewrite <- (map_map fst q_no), H, map_map. reflexivity. Qed.
Record inv (h : list cop) (rs : list cres) (s : core) : Prop := {
  v_len : length rs = length h;
  v_node : reached sz hmac (c_node s);
  v_count : c_count s = count is_write h;
  v_perm : Permutation (sn rs ++ wn s) (numbers (c_count s));
  v_fwd : forall q, In q (c_fwd s) -> exists x, written h q x;
  v_watch : forall w, In w (c_watch s) -> (exists x, written h (w_req w) x) /\ placed rs (q_no (w_req w)) (w_at w);
  v_said : forall q a, In (q, a) (says rs) -> exists x, written h q x;
  v_late : forall w, In w (c_watch s) -> n_applied (c_node s) < lc_idx (w_at w) \/ told h (q_no (w_req w)) }.

(* the location of a new entry *)
(* what each step does, in one form *)
Lemma inv_next h rs s o s' r : inv h rs s -> reached sz hmac (c_node s') ->
  c_count s' = c_count s + (if is_write o then 1 else 0) ->
  Permutation (map (fun a => q_no (fst a)) (r_said r) ++ wn s') (wn s ++ (if is_write o then [c_count s + 1] else [])) ->
  (forall q, In q (c_fwd s') -> In q (c_fwd s) \/ exists x, written (h ++ [o]) q x) ->
  (forall w, In w (c_watch s') -> In w (c_watch s) \/
     (exists x, written (h ++ [o]) (w_req w) x) /\ r_placed r = Some (q_no (w_req w), w_at w)) ->
  (forall q a, In (q, a) (r_said r) -> In q (c_fwd s) \/ In q (map w_req (c_watch s)) \/ exists x, written (h ++ [o]) q x) ->
  (forall w, In w (c_watch s') -> n_applied (c_node s') < lc_idx (w_at w) \/ told (h ++ [o]) (q_no (w_req w))) ->
  inv (h ++ [o]) (rs ++ [r]) s'.
Proof.
  intros V Hr Hc Hp Hf Hw Hs Hl. constructor.
  - rewrite !app_length. cbn. now rewrite (v_len _ _ _ V).
  - assumption.
  - rewrite Hc, (v_count _ _ _ V), count_app, count_cons. change (count is_write []) with 0. destruct (is_write o); lia.
  - rewrite sn_last, <- app_assoc.
    etransitivity; [apply Permutation_app_head; exact Hp|]. rewrite app_assoc.
    etransitivity; [apply Permutation_app_tail; exact (v_perm _ _ _ V)|]. rewrite Hc.
    destruct (is_write o); [now rewrite numbers_succ|]. now rewrite app_nil_r, N.add_0_r.
  - intros q Hq. destruct (Hf q Hq) as [H|H]; [|assumption]. destruct (v_fwd _ _ _ V q H) as [x Hx]. exists x. now apply written_more.
  - intros w Hin. destruct (Hw w Hin) as [H|[H1 H2]].
    + destruct (v_watch _ _ _ V w H) as [[x Hx] Hpl]. split; [exists x; now apply written_more|now apply placed_more].
    + split; [assumption|]. exists r. split; [apply in_or_app; right; now left|assumption].
  - intros q a Hin. rewrite says_last in Hin. apply in_app_or in Hin as [Hin|Hin].
    + destruct (v_said _ _ _ V q a Hin) as [x Hx]. exists x. now apply written_more.
    + destruct (Hs q a Hin) as [H|[H|H]]; [| |assumption].
      * destruct (v_fwd _ _ _ V q H) as [x Hx]. exists x. now apply written_more.
      * apply in_map_iff in H as [w [<- H]]. destruct (v_watch _ _ _ V w H) as [[x Hx] _]. exists x. now apply written_more.
  - assumption.
Qed.
Lemma new_written h rs s tx by_ x ok rnd b : inv h rs s ->
  written (h ++ [CWrite tx by_ x ok rnd b]) (Req (c_count s + 1) tx by_) x.
Proof. intros V. exists h, ok, rnd, b, []. cbn. split; [reflexivity|]. now rewrite (v_count _ _ _ V). Qed.

Lemma inv_refuse h rs s n tx by_ x ok rnd b s' r code : inv h rs s -> reached sz hmac n -> n_applied n = n_applied (c_node s) ->
  refuse D E respond code (Req (c_count s + 1) tx by_) (set_node D n s) = (s', r) ->
  inv (h ++ [CWrite tx by_ x ok rnd b]) (rs ++ [r]) s'.
Proof.
  intros V Hr Ha E1. unfold refuse in E1. cbn [set_node CoreTx.c_open CoreTx.c_node CoreTx.c_db CoreTx.c_part CoreTx.c_watch CoreTx.c_fwd q_no] in E1.
  destruct (callback _ (inl _) (c_open s)) as [o1 a] eqn:Ec. injection E1 as <- <-.
  pose proof (callback_req _ _ _ _ _ Ec) as Hq.
  apply inv_next with (s := s); auto; cbn [CoreTx.c_node CoreTx.c_count CoreTx.c_fwd CoreTx.c_watch r_said r_placed is_write].
  - cbn [map]. rewrite Hq. cbn [q_no]. unfold wn; cbn [CoreTx.c_fwd CoreTx.c_watch]. apply Permutation_cons_append.
  - intros q a' [Hin|[]]. subst a. cbn in Hq. subst q. right; right. exists x. now apply new_written with (rs := rs).
  - intros w Hw. rewrite Ha. destruct (v_late _ _ _ V w Hw); [auto|right; now apply told_more].
Qed.

Lemma inv_step h rs s o s' r : inv h rs s -> cstep s o = Ret (s', r) -> inv (h ++ [o]) (rs ++ [r]) s'.
Proof.
  intros V Es.
  assert (Late : forall o w, In w (c_watch s) -> n_applied (c_node s) < lc_idx (w_at w) \/ told (h ++ [o]) (q_no (w_req w))).
  { intros o' w Hw. destruct (v_late _ _ _ V w Hw); [auto|right; now apply told_more]. }
  assert (Keep : forall o n op, is_write o = false -> reached sz hmac n -> n_applied n = n_applied (c_node s) ->
     inv (h ++ [o]) (rs ++ [quiet_res]) (Core D n (c_db s) (c_part s) (c_watch s) (c_fwd s) (c_count s) op)).
  { intros o' n op Hw Hr Ha. apply inv_next with (s := s); auto; cbn [CoreTx.c_node CoreTx.c_count CoreTx.c_fwd CoreTx.c_watch quiet_res r_said r_placed]; auto.
    - rewrite Hw; lia.
    - rewrite Hw, app_nil_r. reflexivity.
    - contradiction.
    - intros w Hin. rewrite Ha. auto. }
  destruct o as [tx by_ x ok rnd b|no a|o|ok|c|c]; cbn [CoreTx.cstep] in Es.
  - (* write *)
    unfold write in Es.
    assert (Ref : forall cd, Ret (refuse D E respond cd (Req (c_count s + 1) tx by_) s) = Ret (s', r) -> inv (h ++ [CWrite tx by_ x ok rnd b]) (rs ++ [r]) s').
    { intros cd X. injection X as X. apply inv_refuse with (code := cd) (s := s) (n := c_node s); [exact V|apply V|reflexivity|exact X]. }
    destruct (negb match by_ with AClient c => existsb (N.eqb c) (c_open s) | AHost => true end); [now (eapply Ref; exact Es)|].
    destruct (negb (c_part s)); [now (eapply Ref; exact Es)|].
    destruct (is_leader (c_node s)) eqn:El.
    + destruct (psize (m_voting (mship (c_node s))) <? min_voting); [now (eapply Ref; exact Es)|].
      destruct (rstep sz hmac (c_node s) (ORequest ok rnd x)) as [[n a]|] eqn:Er; [|discriminate]. cbn [bind] in Es.
      pose proof (reached_step sz hmac _ _ _ _ (v_node _ _ _ V) Er) as Hr'.
      assert (Ha : n_applied n = n_applied (c_node s)).
      { pose proof (applied_step sz hmac _ _ _ _ (v_node _ _ _ V) Er) as X. destruct (a_taken a) as [[i e]|]; [destruct X; discriminate|assumption]. }
      assert (Ref' : forall cd, Ret (refuse D E respond cd (Req (c_count s + 1) tx by_) (set_node D n s)) = Ret (s', r) -> inv (h ++ [CWrite tx by_ x ok rnd b]) (rs ++ [r]) s').
      { intros cd X. injection X as X. now apply inv_refuse with (code := cd) (s := s) (n := n). }
      destruct (a_loc a) as [[l er]|] eqn:Eal; [|now (eapply Ref'; exact Es)]. destruct er; try now (eapply Ref'; exact Es). clear Ref Ref'.
      injection Es as <- <-.
      assert (Hlog : logged_at sz hmac (c_node s) x l) by (exists ok, rnd, n, a; auto).
      destruct (logged_spec sz hmac _ _ _ (v_node _ _ _ V) Hlog) as (_ & Hidx & _).
      apply inv_next with (s := s); auto; cbn [CoreTx.c_node CoreTx.c_count CoreTx.c_fwd CoreTx.c_watch r_said r_placed is_write q_no].
      * cbn [map app]. unfold wn; cbn [CoreTx.c_fwd CoreTx.c_watch]. rewrite map_app. cbn. now rewrite app_assoc.
      * intros w Hw. apply in_app_or in Hw as [Hw|[<-|[]]]; [now left|right]. split; [|reflexivity].
        exists x. cbn. now apply new_written with (rs := rs).
      * contradiction.
      * intros w Hw. rewrite Ha. apply in_app_or in Hw as [Hw|[<-|[]]]; [auto|left; exact Hidx].
    + destruct (n_role (c_node s)) as [[ld|] el| |]; try now (eapply Ref; exact Es). destruct b; [|now (eapply Ref; exact Es)]. clear Ref. injection Es as <- <-.
      apply inv_next with (s := s); auto; cbn [CoreTx.c_node CoreTx.c_count CoreTx.c_fwd CoreTx.c_watch r_said r_placed is_write q_no].
      * apply V.
      * cbn [map app]. unfold wn; cbn [CoreTx.c_fwd CoreTx.c_watch]. rewrite map_app. cbn.
        rewrite <- !app_assoc. apply Permutation_app_head. cbn. apply Permutation_cons_append.
      * intros q Hq. apply in_app_or in Hq as [Hq|[<-|[]]]; [now left|right]. exists x. now apply new_written with (rs := rs).
      * contradiction.
  - (* the answer to a forwarded request *)
    injection Es as Es. unfold answer in Es. destruct (find _ (c_fwd s)) as [q|] eqn:Ef.
    2: { injection Es as <- <-. destruct s as [n db pt wt fw ct op]. apply Keep; auto. apply V. }
    pose proof (find_some _ _ Ef) as [Hq Hno]. apply N.eqb_eq in Hno.
    assert (Hnd : NoDup (map q_no (c_fwd s))).
    { pose proof (v_perm _ _ _ V) as P. apply Permutation_sym in P. 
      pose proof (Permutation_NoDup P (numbers_nodup _)) as X. unfold wn in X. rewrite app_assoc in X.
      apply nd_l in X. now apply nd_r in X. }
    assert (Hperm : Permutation (q_no q :: map q_no (filter (fun q => negb (q_no q =? no)) (c_fwd s))) (map q_no (c_fwd s))).
    { change (Permutation (map q_no ([q] ++ filter (fun q => negb (q_no q =? no)) (c_fwd s))) (map q_no (c_fwd s))).
      apply Permutation_map. rewrite <- (nodup_filter_one _ _ _ Hnd Ef). apply filter_perm. }
    destruct (v_fwd _ _ _ V q Hq) as [x Hx].
    assert (Err : forall cd, (let (open, r0) := callback q (inl cd) (c_open s) in
         (Core D (c_node s) (c_db s) (c_part s) (c_watch s) (filter (fun q => negb (q_no q =? no)) (c_fwd s)) (c_count s) open, CRes None None None [r0])) = (s', r) ->
         inv (h ++ [CAnswer no a]) (rs ++ [r]) s').
    { intros cd X. destruct (callback q (inl cd) (c_open s)) as [o1 r1] eqn:Ec. injection X as <- <-. pose proof (callback_req _ _ _ _ _ Ec) as Hq1.
      apply inv_next with (s := s); auto; cbn [CoreTx.c_node CoreTx.c_count CoreTx.c_fwd CoreTx.c_watch r_said r_placed is_write q_no].
      - apply V.
      - lia.
      - rewrite app_nil_r. cbn [map app]. rewrite Hq1. unfold wn; cbn [CoreTx.c_fwd CoreTx.c_watch].
        change (q_no q :: map q_no (filter (fun q0 : req => negb (q_no q0 =? no)) (c_fwd s)) ++ map (fun w => q_no (w_req w)) (c_watch s))
          with ((q_no q :: map q_no (filter (fun q0 : req => negb (q_no q0 =? no)) (c_fwd s))) ++ map (fun w => q_no (w_req w)) (c_watch s)).
        now apply Permutation_app_tail.
      - intros q' Hq'. apply filter_In in Hq'. tauto.
      - intros q' a' [Hin|[]]. subst r1. cbn in Hq1. subst q'. now left. }
    destruct a as [ec|l|]; [now (eapply Err; exact Es)| |now (eapply Err; exact Es)]. clear Err. injection Es as <- <-.
    apply inv_next with (s := s); auto; cbn [CoreTx.c_node CoreTx.c_count CoreTx.c_fwd CoreTx.c_watch r_said r_placed is_write q_no].
    + apply V.
    + lia.
    + rewrite app_nil_r. cbn [map app]. unfold wn; cbn [CoreTx.c_fwd CoreTx.c_watch]. rewrite map_app. cbn [map w_req].
      rewrite app_assoc. etransitivity; [apply Permutation_app_comm|]. cbn [app].
      change (Permutation ((q_no q :: map q_no (filter (fun q0 : req => negb (q_no q0 =? no)) (c_fwd s))) ++ map (fun w => q_no (w_req w)) (c_watch s)) (map q_no (c_fwd s) ++ map (fun w => q_no (w_req w)) (c_watch s))).
      now apply Permutation_app_tail.
    + intros q' Hq'. apply filter_In in Hq'. tauto.
    + intros w Hw. apply in_app_or in Hw as [Hw|[<-|[]]]; [now left|right]. cbn. split; [exists x; now apply written_more|]. now rewrite Hno.
    + contradiction.
    + intros w Hw. apply in_app_or in Hw as [Hw|[<-|[]]]; [auto|right]. cbn. exists l. apply in_or_app; right. left. now rewrite Hno.
  - (* raft *)
    assert (Hdone : match o with OTake => False | _ => True end -> (let* '(n, _) := rstep sz hmac (c_node s) o in Ret (set_node D n s, quiet_res)) = Ret (s', r) -> inv (h ++ [CRaft o]) (rs ++ [r]) s').
    { intros Hnt X. destruct (rstep sz hmac (c_node s) o) as [[n a]|] eqn:Er; [|discriminate]. cbn in X. injection X as <- <-.
      apply Keep; [reflexivity|eapply reached_step; [apply V|exact Er]|].
      pose proof (applied_step sz hmac _ _ _ _ (v_node _ _ _ V) Er) as X. destruct (a_taken a) as [[i e]|]; [destruct X as [X _]; subst o; contradiction|assumption]. }
    destruct o; try (apply Hdone; [exact I|exact Es]). injection Es as <- <-. destruct s; apply Keep; auto. apply V.
  - (* take *)
    unfold take in Es. destruct (rstep sz hmac (c_node s) OTake) as [[n a]|] eqn:Er; [|discriminate]. cbn [bind] in Es.
    pose proof (reached_step sz hmac _ _ _ _ (v_node _ _ _ V) Er) as Hr'. pose proof (applied_step sz hmac _ _ _ _ (v_node _ _ _ V) Er) as Ha.
    destruct (a_taken a) as [[i e]|]; [|injection Es as <- <-; now apply Keep]. destruct Ha as (_ & Hi & Hap & _).
    destruct ok; cbn [negb] in Es; [|discriminate].
    destruct (match e_inner e with IData d => apply (c_db s) d | _ => (c_db s, None) end) as [db eff].
    set (removed := match e_inner e with IMember g => (c_part s && negb (contains_me (n_me n) g))%bool | _ => false end) in *. clearbody removed.
    set (part := match e_inner e with IMember g => contains_me (n_me n) g | _ => c_part s end) in *. clearbody part.
    set (left := if removed then [] else c_watch s) in *.
    destruct (callbacks _ (c_open s)) as [op said] eqn:Ec. injection Es as <- <-.
    assert (Hl : forall w, In w left -> In w (c_watch s)) by (unfold left; destruct removed; [contradiction|auto]).
    apply inv_next with (s := s); auto; cbn [CoreTx.c_node CoreTx.c_count CoreTx.c_fwd CoreTx.c_watch r_said r_placed is_write q_no].
    + lia.
    + rewrite app_nil_r. rewrite (sn_callbacks _ _ _ _ Ec). unfold wn; cbn [CoreTx.c_fwd CoreTx.c_watch].
      assert (Hp : Permutation (map (fun x => q_no (fst x)) (((if removed then map (fun w => (w_req w, inl E_RemovedFromRaft)) (c_watch s) else []) ++
           map (fun w => (w_req w, outcome_for E e eff (w_at w))) (filter (fun w => lc_idx (w_at w) =? i) left)) : list (req * (N + option E))) ++
           map (fun w => q_no (w_req w)) (filter (fun w => negb (lc_idx (w_at w) =? i)) left)) (map (fun w => q_no (w_req w)) (c_watch s))).
      { rewrite map_app, map_map. cbn [fst]. unfold left. destruct removed; cbn [filter map app]; rewrite ?app_nil_r, ?map_map; cbn [fst]; [reflexivity|].
        rewrite <- map_app. apply Permutation_map, filter_perm. }
      etransitivity; [apply Permutation_app_swap_app|]. now apply Permutation_app_head.
    + intros w Hw. apply filter_In in Hw as [Hw _]. auto.
    + intros q a' Hin. right; left. pose proof (callbacks_reqs _ _ _ _ Ec) as Hreq.
      assert (Hq : In q (map fst said)) by (apply in_map_iff; exists (q, a'); auto). rewrite Hreq, map_app, in_app_iff in Hq.
      destruct Hq as [Hq|Hq]; apply in_map_iff in Hq as [y [<- Hy]].
      * destruct removed; [|contradiction]. apply in_map_iff in Hy as [w [<- Hw]]. cbn. now apply in_map.
      * apply in_map_iff in Hy as [w [<- Hw]]. cbn. apply filter_In in Hw as [Hw _]. now apply in_map, Hl.
    + intros w Hw. apply filter_In in Hw as [Hw Hn]. apply Hl in Hw. apply Bool.negb_true_iff, N.eqb_neq in Hn.
      destruct (Late (CTake true) w Hw) as [H|H]; [left; lia|now right].
  - injection Es as <- <-. apply Keep; [reflexivity|apply V|reflexivity].
  - injection Es as <- <-. apply Keep; [reflexivity|apply V|reflexivity].
Qed.
Lemma inv_start s : started sz hmac s -> inv [] [] s.
Proof.
  intros (n & db & part & Hr & ->). constructor; cbn; auto; try contradiction.
Qed.
Lemma inv_exec h2 : forall h rs s s' rs2, inv h rs s -> cexec s h2 = Ret (s', rs2) -> inv (h ++ h2) (rs ++ rs2) s'.
Proof.
  induction h2 as [|o h2 IH]; intros h rs s s' rs2 V E1; cbn [exec] in E1; [injection E1 as <- <-; now rewrite !app_nil_r|].
  destruct (cstep s o) as [[s1 r]|] eqn:Es; [|discriminate]. destruct (cexec s1 h2) as [[s2 rs3]|] eqn:Eh; [|discriminate].
  injection E1 as <- <-. pose proof (IH _ _ _ _ _ (inv_step _ _ _ _ _ _ V Es) Eh) as X. rewrite <- !app_assoc in X. exact X.
Qed.
Lemma inv_reached s0 h s rs : started sz hmac s0 -> cexec s0 h = Ret (s, rs) -> inv h rs s.
Proof. intros H E1. exact (inv_exec _ _ _ _ _ _ (inv_start _ H) E1). Qed.

(* --- requests and their answers ------------------------------------------------ *)
Lemma once h rs s no : inv h rs s -> 1 <= no <= count is_write h ->
  (waits s no /\ answers no rs = []) \/ (~ waits s no /\ exists a, answers no rs = [a]).
Proof.
  intros V Hno. rewrite <- (v_count _ _ _ V) in Hno. apply numbers_in in Hno. pose proof (Permutation_sym (v_perm _ _ _ V)) as P.
  pose proof (Permutation_NoDup P (numbers_nodup _)) as ND. apply (Permutation_in _ P) in Hno. apply in_app_or in Hno as [Hno|Hno].
  - right. split.
    + rewrite waits_wn. intros X. revert ND Hno X. generalize (sn rs) (wn s). clear. intros a b ND Ha Hb.
      induction a as [|x a IH]; [contradiction|]. cbn in ND. apply NoDup_cons_iff in ND as [H1 H2]. destruct Ha as [->|Ha]; [apply H1, in_or_app; auto|auto].
    + pose proof (nodup_filter_eqb no _ (nd_l _ _ ND) Hno) as Hl. rewrite <- answers_count in Hl.
      destruct (answers no rs) as [|a [|b l]]; try discriminate. now exists a.
  - left. split; [now apply waits_wn|]. apply answers_nil. intros X. revert ND X Hno. generalize (sn rs) (wn s). clear. intros a b ND Ha Hb.
    induction a as [|x a IH]; [contradiction|]. cbn in ND. apply NoDup_cons_iff in ND as [H1 H2]. destruct Ha as [->|Ha]; [apply H1, in_or_app; auto|auto].
Qed.

(* --- where a request is ---------------------------------------------------------- *)
Record where_ (rs : list cres) (s : core) : Prop := {
  p_no : forall no l, placed rs no l -> no <= c_count s;
  p_fwd : forall no l q, placed rs no l -> In q (c_fwd s) -> q_no q <> no;
  p_at : forall no l w, placed rs no l -> In w (c_watch s) -> q_no (w_req w) = no -> w_at w = l }.
Lemma in_wn_le h rs s no : inv h rs s -> In no (wn s) -> 1 <= no <= c_count s.
Proof.
  intros V H. apply numbers_in. eapply Permutation_in; [exact (v_perm _ _ _ V)|]. apply in_or_app. now right.
Qed.
Lemma wn_nodup h rs s : inv h rs s -> NoDup (wn s).
Proof. intros V. eapply nd_r. eapply Permutation_NoDup; [exact (Permutation_sym (v_perm _ _ _ V))|apply numbers_nodup]. Qed.
Lemma where_refuse h rs s n s' r q code : inv h rs s -> where_ rs s -> q_no q = c_count s + 1 ->
  refuse D E respond code q (set_node D n s) = (s', r) -> where_ (rs ++ [r]) s'.
Proof.
  intros V [W1 W2 W3] Hq E1. unfold refuse in E1. cbn [set_node CoreTx.c_open CoreTx.c_node CoreTx.c_db CoreTx.c_part CoreTx.c_watch CoreTx.c_fwd] in E1.
  destruct (callback q (inl _) (c_open s)) as [op a]. injection E1 as <- <-.
  constructor; cbn; intros no l; intros; match goal with H : placed _ _ _ |- _ => apply placed_last in H as [H|H]; [|discriminate] end; eauto.
  rewrite Hq. specialize (W1 _ _ H). lia.
Qed.
Lemma where_step h rs s o s' r : inv h rs s -> where_ rs s -> cstep s o = Ret (s', r) -> where_ (rs ++ [r]) s'.
Proof.
  intros V W Es. pose proof W as [W1 W2 W3].
  assert (Q : forall r, r_placed r = None -> c_count s <= c_count s' -> incl (c_fwd s') (c_fwd s) -> incl (c_watch s') (c_watch s) -> where_ (rs ++ [r]) s').
  { intros r0 Hp Hc Hf Hw. constructor; intros no l; intros; match goal with H : placed _ _ _ |- _ => apply placed_last in H as [H|H]; [|congruence] end.
    - specialize (W1 _ _ H). lia.
    - eauto.
    - eauto. }
  destruct o as [tx by_ x ok rnd b|no a|o|ok|c|c]; cbn [CoreTx.cstep] in Es.
  - unfold write in Es. clear Q.
    assert (Ref : forall n cd, Ret (refuse D E respond cd (Req (c_count s + 1) tx by_) (set_node D n s)) = Ret (s', r) -> where_ (rs ++ [r]) s').
    { intros n cd X. injection X as X. eapply where_refuse; [exact V|exact W| |exact X]. reflexivity. }
    destruct (negb match by_ with AClient c => existsb (N.eqb c) (c_open s) | AHost => true end); [now (eapply (Ref (c_node s)); exact Es)|].
    destruct (negb (c_part s)); [now (eapply (Ref (c_node s)); exact Es)|].
    destruct (is_leader (c_node s)) eqn:El.
    + destruct (psize (m_voting (mship (c_node s))) <? min_voting); [now (eapply (Ref (c_node s)); exact Es)|].
      destruct (rstep sz hmac (c_node s) (ORequest ok rnd x)) as [[n a]|] eqn:Er; [|discriminate]. cbn [bind] in Es.
      destruct (a_loc a) as [[l er]|]; [|now (eapply (Ref n); exact Es)]. destruct er; try now (eapply (Ref n); exact Es). injection Es as <- <-.
      constructor; cbn; intros no l'; intros; match goal with H : placed _ _ _ |- _ => apply placed_last in H as [H|H]; cbn in H end.
      * specialize (W1 _ _ H). lia.
      * injection H as <- <-. lia.
      * eauto.
      * injection H as <- <-. intros Hq. pose proof (in_wn_le _ _ _ (c_count s + 1) V) as X.
        assert (In (c_count s + 1) (wn s)) by (unfold wn; apply in_or_app; left; apply in_map_iff; eauto). specialize (X H). lia.
      * apply in_app_or in H0 as [H0|[<-|[]]]; [eauto|]. cbn in H1. specialize (W1 _ _ H). lia.
      * injection H as <- <-. apply in_app_or in H0 as [H0|[<-|[]]]; [|reflexivity]. exfalso. pose proof (in_wn_le _ _ _ (c_count s + 1) V) as X.
        assert (In (c_count s + 1) (wn s)) by (unfold wn; apply in_or_app; right; apply in_map_iff; eauto). specialize (X H). lia.
    + destruct (n_role (c_node s)) as [[ld|] el| |]; try now (eapply (Ref (c_node s)); exact Es). destruct b; [|now (eapply (Ref (c_node s)); exact Es)]. injection Es as <- <-.
      constructor; cbn; intros no l'; intros; match goal with H : placed _ _ _ |- _ => apply placed_last in H as [H|H]; [|discriminate] end.
      * specialize (W1 _ _ H). lia.
      * apply in_app_or in H0 as [H0|[<-|[]]]; [eauto|]. cbn. specialize (W1 _ _ H). lia.
      * eauto.
  - injection Es as Es. unfold answer in Es. destruct (find _ (c_fwd s)) as [q|] eqn:Ef; [|injection Es as <- <-; apply Q; auto using incl_refl; lia].
    pose proof (find_some _ _ Ef) as [Hq Hno]. apply N.eqb_eq in Hno.
    assert (Hsub : incl (filter (fun q => negb (q_no q =? no)) (c_fwd s)) (c_fwd s)) by (intros z Hz; now apply filter_In in Hz).
    destruct a as [ec|l|]; [destruct (callback q (inl _) (c_open s)); injection Es as <- <-; apply Q; cbn; auto using incl_refl; lia| |
                          destruct (callback q (inl _) (c_open s)); injection Es as <- <-; apply Q; cbn; auto using incl_refl; lia].
    injection Es as <- <-. clear Q.
    constructor; cbn; intros no' l'; intros; match goal with H : placed _ _ _ |- _ => apply placed_last in H as [H|H]; cbn in H end.
    + eauto.
    + injection H as <- <-. rewrite <- Hno. eapply in_wn_le; [exact V|]. unfold wn. apply in_or_app; left. now apply in_map.
    + eauto.
    + injection H as <- <-. apply filter_In in H0 as [_ H0]. now apply Bool.negb_true_iff, N.eqb_neq in H0.
    + apply in_app_or in H0 as [H0|[<-|[]]]; [eauto|]. exfalso. cbn in H1. exact (W2 _ _ _ H Hq H1).
    + injection H as <- <-. apply in_app_or in H0 as [H0|[<-|[]]]; [|reflexivity]. exfalso.
      pose proof (wn_nodup _ _ _ V) as ND. unfold wn in ND.
      assert (Ha : In no (map q_no (c_fwd s))) by (apply in_map_iff; eauto).
      assert (Hb : In no (map (fun w => q_no (w_req w)) (c_watch s))) by (apply in_map_iff; eauto).
      revert ND Ha Hb. generalize (map q_no (c_fwd s)) (map (fun w => q_no (w_req w)) (c_watch s)). clear. intros a b ND Ha Hb.
      induction a as [|x a IH]; [contradiction|]. cbn in ND. apply NoDup_cons_iff in ND as [H1 H2]. destruct Ha as [->|Ha]; [apply H1, in_or_app; auto|auto].
  - assert (Hdone : (let* '(n, _) := rstep sz hmac (c_node s) o in Ret (set_node D n s, quiet_res)) = Ret (s', r) -> where_ (rs ++ [r]) s').
    { intros X. destruct (rstep sz hmac (c_node s) o) as [[n a]|] eqn:Er; [|discriminate]. cbn in X. injection X as <- <-. apply Q; cbn; auto using incl_refl; lia. }
    destruct o; try (apply Hdone; exact Es). injection Es as <- <-. apply Q; auto using incl_refl; lia.
  - unfold take in Es. destruct (rstep sz hmac (c_node s) OTake) as [[n a]|] eqn:Er; [|discriminate]. cbn [bind] in Es.
    destruct (a_taken a) as [[i e]|]; [|injection Es as <- <-; apply Q; cbn; auto using incl_refl; lia].
    destruct ok; cbn [negb] in Es; [|discriminate].
    destruct (match e_inner e with IData d => apply (c_db s) d | _ => (c_db s, None) end) as [db eff].
    set (removed := match e_inner e with IMember g => (c_part s && negb (contains_me (n_me n) g))%bool | _ => false end) in *. clearbody removed.
    destruct (callbacks _ (c_open s)) as [op said] eqn:Ec. injection Es as <- <-. apply Q; cbn; auto using incl_refl; [lia|].
    intros w Hw. apply filter_In in Hw as [Hw _]. destruct removed; [contradiction|assumption].
  - injection Es as <- <-. apply Q; cbn; auto using incl_refl; lia.
  - injection Es as <- <-. apply Q; cbn; auto using incl_refl; lia.
Qed.
Lemma where_exec h2 : forall h rs s s' rs2, inv h rs s -> where_ rs s -> cexec s h2 = Ret (s', rs2) -> where_ (rs ++ rs2) s'.
Proof.
  induction h2 as [|o h2 IH]; intros h rs s s' rs2 V W E1; cbn [exec] in E1; [injection E1 as <- <-; now rewrite !app_nil_r|].
  destruct (cstep s o) as [[s1 r]|] eqn:Es; [|discriminate]. destruct (cexec s1 h2) as [[s2 rs3]|] eqn:Eh; [|discriminate].
  injection E1 as <- <-. pose proof (IH _ _ _ _ _ (inv_step _ _ _ _ _ _ V Es) (where_step _ _ _ _ _ _ V W Es) Eh) as X. rewrite <- !app_assoc in X. exact X.
Qed.
Lemma where_reached s0 h s rs : started sz hmac s0 -> cexec s0 h = Ret (s, rs) -> where_ rs s.
Proof.
  intros H E1. pose proof (inv_start _ H) as V. apply (where_exec _ _ [] _ _ _ V) in E1; [exact E1|].
  constructor; intros no l; intros; match goal with H : placed _ _ _ |- _ => destruct H as (? & [] & _) end.
Qed.

(* --- what a good answer means ---------------------------------------------------- *)
Lemma outcome_for_some e eff l o : outcome_for E e eff l = inr o -> o = eff /\ lc_term l = e_term e /\ (lc_hash l = [] \/ lc_hash l = e_hash e).
Proof.
  unfold outcome_for. destruct (N.eqb_spec (lc_term l) (e_term e)) as [Ht|]; [|discriminate]. cbn [negb].
  destruct (0 <? blen (lc_hash l)) eqn:Eb; cbn [andb].
  - destruct (beq (lc_hash l) (e_hash e)) eqn:Ee; [|discriminate]. cbn. intros X. injection X as <-. apply beq_eq in Ee. auto.
  - intros X. injection X as <-. split; [reflexivity|]. split; [assumption|]. left. apply N.ltb_ge in Eb. unfold blen in Eb.
    destruct (lc_hash l); [reflexivity|cbn in Eb; lia].
Qed.
Lemma refuse_says code q s s' r q' a : refuse D E respond code q s = (s', r) -> In (q', a) (r_said r) -> success a -> False.
Proof.
  unfold refuse. destruct (callback q (inl _) (c_open s)) as [op a'] eqn:Ec. intros X Hin Hs. injection X as <- <-. destruct Hin as [->|[]].
  destruct (callback_success _ _ _ _ _ Ec Hs) as (eff & X & _). discriminate.
Qed.
Lemma success_step h rs s o s' r q a : inv h rs s -> cstep s o = Ret (s', r) -> In (q, a) (r_said r) -> success a ->
  exists i e l, o = CTake true /\ r_taken r = Some (i, e) /\ placed rs (q_no q) l /\ matches i e l /\
  match q_by q with
  | AHost => a = SDone
  | AClient c => exists d ef b, e_inner e = IData d /\ apply (c_db s) d = (c_db s', Some ef) /\ respond c ef = Some b /\ a = SData b
  end.
Proof.
  intros V Es Hin Hs. destruct o as [tx by_ x ok rnd b|no an|o|ok|c|c]; cbn [CoreTx.cstep] in Es.
  - exfalso. unfold write in Es.
    assert (Ref : forall cd s1 q1, Ret (refuse D E respond cd q1 s1) = Ret (s', r) -> False).
    { intros cd s1 q1 X. injection X as X. eapply refuse_says; eauto. }
    destruct (negb match by_ with AClient c => existsb (N.eqb c) (c_open s) | AHost => true end); [eapply Ref; eassumption|].
    destruct (negb (c_part s)); [eapply Ref; eassumption|].
    destruct (is_leader (c_node s)) eqn:El.
    + destruct (psize (m_voting (mship (c_node s))) <? min_voting); [eapply Ref; eassumption|].
      destruct (rstep sz hmac (c_node s) (ORequest ok rnd x)) as [[n a1]|] eqn:Er; [|discriminate]. cbn [bind] in Es.
      destruct (a_loc a1) as [[l er]|]; [|eapply Ref; eassumption]. destruct er; try (eapply Ref; eassumption). injection Es as <- <-. contradiction.
    + destruct (n_role (c_node s)) as [[ld|] el| |]; try (eapply Ref; eassumption). destruct b; [|eapply Ref; eassumption]. injection Es as <- <-. contradiction.
  - exfalso. injection Es as Es. unfold answer in Es. destruct (find _ (c_fwd s)) as [q1|] eqn:Ef; [|injection Es as <- <-; contradiction].
    destruct an as [ec|l|]; [| injection Es as <- <-; contradiction |];
      (destruct (callback q1 (inl _) (c_open s)) as [op a1] eqn:Ec; injection Es as <- <-; destruct Hin as [->|[]];
       destruct (callback_success _ _ _ _ _ Ec Hs) as (eff & X & _); discriminate).
  - exfalso. assert (Hd : (let* '(n, _) := rstep sz hmac (c_node s) o in Ret (set_node D n s, quiet_res)) = Ret (s', r) -> False).
    { intros X. destruct (rstep sz hmac (c_node s) o) as [[n a1]|]; [|discriminate]. cbn in X. injection X as <- <-. contradiction. }
    destruct o; try (apply Hd; exact Es). injection Es as <- <-. contradiction.
  - unfold take in Es. destruct (rstep sz hmac (c_node s) OTake) as [[n a1]|] eqn:Er; [|discriminate]. cbn [bind] in Es.
    destruct (a_taken a1) as [[i e]|]; [|injection Es as <- <-; contradiction]. destruct ok; cbn [negb] in Es; [|discriminate].
    destruct (match e_inner e with IData d => apply (c_db s) d | _ => (c_db s, None) end) as [db eff] eqn:Ed.
    set (removed := match e_inner e with IMember g => (c_part s && negb (contains_me (n_me n) g))%bool | _ => false end) in *. clearbody removed.
    destruct (callbacks _ (c_open s)) as [op said] eqn:Ec. injection Es as <- <-. cbn [r_said r_taken] in *.
    destruct (callbacks_success _ _ _ _ _ _ Ec Hin Hs) as (eff' & Hin' & Hm). apply in_app_or in Hin' as [Hin'|Hin'].
    { exfalso. destruct removed; [|contradiction]. apply in_map_iff in Hin' as [w [X _]]. discriminate. }
    apply in_map_iff in Hin' as [w [X Hw]]. apply filter_In in Hw as [Hw Hidx]. apply N.eqb_eq in Hidx. injection X as Hq Ho.
    assert (Hw' : In w (c_watch s)) by (destruct removed; [contradiction|assumption]). clear Hw.
    destruct (outcome_for_some _ _ _ _ Ho) as (-> & Ht & Hh). destruct (v_watch _ _ _ V w Hw') as [_ Hp]. rewrite Hq in Hp.
    exists i, e, (w_at w). do 3 (split; [auto|]). split; [now repeat split|]. destruct (q_by q) as [c|]; [|assumption].
    destruct Hm as (_ & ef & b & He & Hr & Ha). subst eff. cbn [CoreTx.c_db]. destruct (e_inner e) as [|d|g|m]; try discriminate.
    exists d, ef, b. auto.
  - injection Es as <- <-. contradiction.
  - injection Es as <- <-. contradiction.
Qed.
(* how a request got its place *)
Lemma placed_step s o s' r no l : cstep s o = Ret (s', r) -> r_placed r = Some (no, l) ->
  o = CAnswer no (FLocated l) \/
  exists tx by_ x ok rnd b, o = CWrite tx by_ x ok rnd b /\ no = c_count s + 1 /\ is_leader (c_node s) = true /\ logged_at sz hmac (c_node s) x l.
Proof.
  intros Es Hp. destruct o as [tx by_ x ok rnd b|no' an|o|ok|c|c]; cbn [CoreTx.cstep] in Es.
  - right. unfold write in Es.
    assert (Ref : forall cd s1 q1, Ret (refuse D E respond cd q1 s1) = Ret (s', r) -> False).
    { intros cd s1 q1 X. injection X as X. unfold refuse in X. destruct (callback q1 (inl _) (c_open s1)) as [op a'] eqn:Ec. injection X as <- <-. discriminate. }
    destruct (negb match by_ with AClient c => existsb (N.eqb c) (c_open s) | AHost => true end); [destruct (Ref _ _ _ Es)|].
    destruct (negb (c_part s)); [destruct (Ref _ _ _ Es)|].
    destruct (is_leader (c_node s)) eqn:El.
    + destruct (psize (m_voting (mship (c_node s))) <? min_voting); [destruct (Ref _ _ _ Es)|].
      destruct (rstep sz hmac (c_node s) (ORequest ok rnd x)) as [[n a1]|] eqn:Er; [|discriminate]. cbn [bind] in Es.
      destruct (a_loc a1) as [[l1 er]|] eqn:Ea; [|destruct (Ref _ _ _ Es)]. destruct er; try (destruct (Ref _ _ _ Es)). injection Es as <- <-.
      cbn in Hp. injection Hp as <- <-. exists tx, by_, x, ok, rnd, b. do 3 (split; [reflexivity|]). exists ok, rnd, n, a1. auto.
    + destruct (n_role (c_node s)) as [[ld|] el| |]; try (destruct (Ref _ _ _ Es)). destruct b; [|destruct (Ref _ _ _ Es)]. injection Es as <- <-. discriminate.
  - left. injection Es as Es. unfold answer in Es. destruct (find _ (c_fwd s)) as [q1|] eqn:Ef; [|injection Es as <- <-; discriminate].
    destruct an as [ec|l1|]; [destruct (callback q1 (inl _) (c_open s)); injection Es as <- <-; discriminate|injection Es as <- <-|
      destruct (callback q1 (inl _) (c_open s)); injection Es as <- <-; discriminate]. cbn in Hp. injection Hp as -> ->. reflexivity.
  - exfalso. assert (Hd : (let* '(n, _) := rstep sz hmac (c_node s) o in Ret (set_node D n s, quiet_res)) = Ret (s', r) -> False).
    { intros X. destruct (rstep sz hmac (c_node s) o) as [[n a1]|]; [|discriminate]. cbn in X. injection X as <- <-. discriminate. }
    destruct o; try (apply Hd; exact Es). injection Es as <- <-. discriminate.
  - exfalso. unfold take in Es. destruct (rstep sz hmac (c_node s) OTake) as [[n a1]|] eqn:Er; [|discriminate]. cbn [bind] in Es.
    destruct (a_taken a1) as [[i e]|]; [|injection Es as <- <-; discriminate]. destruct ok; cbn [negb] in Es; [|discriminate].
    destruct (match e_inner e with IData d => apply (c_db s) d | _ => (c_db s, None) end) as [db eff] eqn:Ed.
    destruct (callbacks _ (c_open s)) as [op said] eqn:Ec. injection Es as <- <-. discriminate.
  - injection Es as <- <-. discriminate.
  - injection Es as <- <-. discriminate.
Qed.
Lemma taken_step s o s' r i e : reached sz hmac (c_node s) -> cstep s o = Ret (s', r) -> r_taken r = Some (i, e) ->
  o = CTake true /\ i = n_applied (c_node s) + 1 /\ n_applied (c_node s') = i /\
  exists A, holds (n_log (c_node s)) A /\ chained hmac A /\ nth_entry A i = Some e.
Proof.
  intros V Es Ht. destruct o as [tx by_ x ok rnd b|no' an|o|ok|c|c]; cbn [CoreTx.cstep] in Es.
  - exfalso. unfold write in Es.
    assert (Ref : forall cd s1 q1, Ret (refuse D E respond cd q1 s1) = Ret (s', r) -> False).
    { intros cd s1 q1 X. injection X as X. unfold refuse in X. destruct (callback q1 (inl _) (c_open s1)) as [op a'] eqn:Ec. injection X as <- <-. discriminate. }
    destruct (negb match by_ with AClient c => existsb (N.eqb c) (c_open s) | AHost => true end); [destruct (Ref _ _ _ Es)|].
    destruct (negb (c_part s)); [destruct (Ref _ _ _ Es)|].
    destruct (is_leader (c_node s)) eqn:El.
    + destruct (psize (m_voting (mship (c_node s))) <? min_voting); [destruct (Ref _ _ _ Es)|].
      destruct (rstep sz hmac (c_node s) (ORequest ok rnd x)) as [[n a1]|] eqn:Er; [|discriminate]. cbn [bind] in Es.
      destruct (a_loc a1) as [[l1 er]|] eqn:Ea; [|destruct (Ref _ _ _ Es)]. destruct er; try (destruct (Ref _ _ _ Es)). injection Es as <- <-. discriminate.
    + destruct (n_role (c_node s)) as [[ld|] el| |]; try (destruct (Ref _ _ _ Es)). destruct b; [|destruct (Ref _ _ _ Es)]. injection Es as <- <-. discriminate.
  - exfalso. injection Es as Es. unfold answer in Es. destruct (find _ (c_fwd s)) as [q1|] eqn:Ef; [|injection Es as <- <-; discriminate].
    destruct an as [ec|l1|]; [destruct (callback q1 (inl _) (c_open s)); injection Es as <- <-; discriminate|injection Es as <- <-; discriminate|
      destruct (callback q1 (inl _) (c_open s)); injection Es as <- <-; discriminate].
  - exfalso. assert (Hd : (let* '(n, _) := rstep sz hmac (c_node s) o in Ret (set_node D n s, quiet_res)) = Ret (s', r) -> False).
    { intros X. destruct (rstep sz hmac (c_node s) o) as [[n a1]|]; [|discriminate]. cbn in X. injection X as <- <-. discriminate. }
    destruct o; try (apply Hd; exact Es). injection Es as <- <-. discriminate.
  - unfold take in Es. destruct (rstep sz hmac (c_node s) OTake) as [[n a1]|] eqn:Er; [|discriminate]. cbn [bind] in Es.
    pose proof (applied_step sz hmac _ _ _ _ V Er) as Ha.
    destruct (a_taken a1) as [[i1 e1]|]; [|injection Es as <- <-; discriminate]. destruct ok; cbn [negb] in Es; [|discriminate].
    destruct (match e_inner e1 with IData d => apply (c_db s) d | _ => (c_db s, None) end) as [db eff] eqn:Ed.
    destruct (callbacks _ (c_open s)) as [op said] eqn:Ec. injection Es as <- <-. cbn in Ht. injection Ht as <- <-.
    destruct Ha as (_ & H1 & H2 & H3). cbn. auto.
  - injection Es as <- <-. discriminate.
  - injection Es as <- <-. discriminate.
Qed.
(* the entry at a request's place is the request's, or the hash has a collision *)
Lemma client_gone_step s o s' r c : cstep s o = Ret (s', r) -> opens c o = false -> ~ In c (c_open s) ->
  ~ In c (c_open s') /\ forall q a, In (q, a) (r_said r) -> q_by q = AClient c -> failure a.
Proof.
  intros Es Ho Hn.
  assert (Hf : forall c' l, ~ In c l -> ~ In c (filter (fun x => negb (x =? c')) l)) by (intros c' l H1 H2; apply filter_In in H2; tauto).
  destruct o as [tx by_ x ok rnd b|no' an|o|ok|c'|c']; cbn [CoreTx.cstep] in Es.
  - unfold write in Es.
    assert (Ref : forall cd n q1, Ret (refuse D E respond cd q1 (set_node D n s)) = Ret (s', r) -> ~ In c (c_open s') /\ forall q a, In (q, a) (r_said r) -> q_by q = AClient c -> failure a).
    { intros cd n q1 X. injection X as X. unfold refuse in X. cbn [set_node CoreTx.c_open] in X. destruct (callback q1 (inl _) (c_open s)) as [op a'] eqn:Ec. injection X as <- <-.
      destruct (callback_gone _ _ _ _ _ c Ec Hn) as [G1 G2]. split; [exact G1|]. intros q a [->|[]] Hq. pose proof (callback_req _ _ _ _ _ Ec) as X. cbn in *. subst q1. auto. }
    assert (Q : r_said r = [] -> c_open s' = c_open s -> ~ In c (c_open s') /\ forall q a, In (q, a) (r_said r) -> q_by q = AClient c -> failure a).
    { intros X Y. rewrite X, Y. split; [assumption|contradiction]. }
    destruct (negb match by_ with AClient c => existsb (N.eqb c) (c_open s) | AHost => true end); [exact (Ref _ (c_node s) _ Es)|].
    destruct (negb (c_part s)); [exact (Ref _ (c_node s) _ Es)|].
    destruct (is_leader (c_node s)) eqn:El.
    + destruct (psize (m_voting (mship (c_node s))) <? min_voting); [exact (Ref _ (c_node s) _ Es)|].
      destruct (rstep sz hmac (c_node s) (ORequest ok rnd x)) as [[n a1]|] eqn:Er; [|discriminate]. cbn [bind] in Es.
      destruct (a_loc a1) as [[l1 er]|] eqn:Ea; [|exact (Ref _ _ _ Es)]. destruct er; try exact (Ref _ _ _ Es). injection Es as <- <-. now apply Q.
    + destruct (n_role (c_node s)) as [[ld|] el| |]; try exact (Ref _ (c_node s) _ Es). destruct b; [|exact (Ref _ (c_node s) _ Es)]. injection Es as <- <-. now apply Q.
  - injection Es as Es. unfold answer in Es. destruct (find _ (c_fwd s)) as [q1|] eqn:Ef; [|injection Es as <- <-; split; [assumption|contradiction]].
    assert (Err : forall cd fwd wt, (let (open, r0) := callback q1 (inl cd) (c_open s) in
         (Core D (c_node s) (c_db s) (c_part s) wt fwd (c_count s) open, CRes None None None [r0])) = (s', r) ->
         ~ In c (c_open s') /\ forall q a, In (q, a) (r_said r) -> q_by q = AClient c -> failure a).
    { intros cd fwd wt X. destruct (callback q1 (inl cd) (c_open s)) as [op a'] eqn:Ec. injection X as <- <-.
      destruct (callback_gone _ _ _ _ _ c Ec Hn) as [G1 G2]. split; [exact G1|]. intros q a [->|[]] Hq. pose proof (callback_req _ _ _ _ _ Ec) as X. cbn in *. subst q1. auto. }
    destruct an as [ec|l1|]; [exact (Err _ _ _ Es)|injection Es as <- <-; split; [assumption|contradiction]|exact (Err _ _ _ Es)].
  - assert (Hd : (let* '(n, _) := rstep sz hmac (c_node s) o in Ret (set_node D n s, quiet_res)) = Ret (s', r) -> ~ In c (c_open s') /\ forall q a, In (q, a) (r_said r) -> q_by q = AClient c -> failure a).
    { intros X. destruct (rstep sz hmac (c_node s) o) as [[n a1]|]; [|discriminate]. cbn in X. injection X as <- <-. split; [assumption|contradiction]. }
    destruct o; try (apply Hd; exact Es). injection Es as <- <-. split; [assumption|contradiction].
  - unfold take in Es. destruct (rstep sz hmac (c_node s) OTake) as [[n a1]|] eqn:Er; [|discriminate]. cbn [bind] in Es.
    destruct (a_taken a1) as [[i1 e1]|]; [|injection Es as <- <-; split; [assumption|contradiction]]. destruct ok; cbn [negb] in Es; [|discriminate].
    destruct (match e_inner e1 with IData d => apply (c_db s) d | _ => (c_db s, None) end) as [db eff] eqn:Ed.
    destruct (callbacks _ (c_open s)) as [op said] eqn:Ec. injection Es as <- <-. exact (callbacks_gone _ _ _ _ _ Ec Hn).
  - injection Es as <- <-. cbn in *. apply N.eqb_neq in Ho. split; [intros [|]; auto|contradiction].
  - injection Es as <- <-. cbn. split; [auto|contradiction].
Qed.
Lemma client_error_step s o s' r code c q x y : cstep s o = Ret (s', r) -> r_said r = x ++ (q, SError code) :: y -> q_by q = AClient c ->
  ~ In c (c_open s') /\ forall q a, In (q, a) y -> q_by q = AClient c -> failure a.
Proof.
  intros Es Hr Hq.
  assert (One : forall cd q1 op a', callback q1 (inl cd) (c_open s) = (op, a') -> [a'] = x ++ (q, SError code) :: y -> ~ In c op /\ forall q a, In (q, a) y -> q_by q = AClient c -> failure a).
  { intros cd q1 op a' Ec X. destruct x as [|? [|? ?]]; cbn in X; try discriminate. injection X as -> <-.
    pose proof (callback_req _ _ _ _ _ Ec) as Y. cbn in Y. subst q1. split; [exact (callback_error _ _ _ _ _ _ Ec Hq)|contradiction]. }
  assert (Nil : [] = x ++ (q, SError code) :: y -> ~ In c (c_open s') /\ forall q a, In (q, a) y -> q_by q = AClient c -> failure a) by (destruct x; discriminate).
  destruct o as [tx by_ inn ok rnd b|no' an|o|ok|c'|c']; cbn [CoreTx.cstep] in Es.
  - unfold write in Es.
    assert (Ref : forall cd n q1, Ret (refuse D E respond cd q1 (set_node D n s)) = Ret (s', r) -> ~ In c (c_open s') /\ forall q a, In (q, a) y -> q_by q = AClient c -> failure a).
    { intros cd n q1 X. injection X as X. unfold refuse in X. cbn [set_node CoreTx.c_open] in X. destruct (callback q1 (inl _) (c_open s)) as [op a'] eqn:Ec. injection X as <- <-. exact (One _ _ _ _ Ec Hr). }
    destruct (negb match by_ with AClient c => existsb (N.eqb c) (c_open s) | AHost => true end); [exact (Ref _ (c_node s) _ Es)|].
    destruct (negb (c_part s)); [exact (Ref _ (c_node s) _ Es)|].
    destruct (is_leader (c_node s)) eqn:El.
    + destruct (psize (m_voting (mship (c_node s))) <? min_voting); [exact (Ref _ (c_node s) _ Es)|].
      destruct (rstep sz hmac (c_node s) (ORequest ok rnd inn)) as [[n a1]|] eqn:Er; [|discriminate]. cbn [bind] in Es.
      destruct (a_loc a1) as [[l1 er]|] eqn:Ea; [|exact (Ref _ _ _ Es)]. destruct er; try exact (Ref _ _ _ Es). injection Es as <- <-. now apply Nil.
    + destruct (n_role (c_node s)) as [[ld|] el| |]; try exact (Ref _ (c_node s) _ Es). destruct b; [|exact (Ref _ (c_node s) _ Es)]. injection Es as <- <-. now apply Nil.
  - injection Es as Es. unfold answer in Es. destruct (find _ (c_fwd s)) as [q1|] eqn:Ef; [|injection Es as <- <-; now apply Nil].
    destruct an as [ec|l1|]; [| injection Es as <- <-; now apply Nil |];
      (destruct (callback q1 (inl _) (c_open s)) as [op a'] eqn:Ec; injection Es as <- <-; exact (One _ _ _ _ Ec Hr)).
  - assert (Hd : (let* '(n, _) := rstep sz hmac (c_node s) o in Ret (set_node D n s, quiet_res)) = Ret (s', r) -> ~ In c (c_open s') /\ forall q a, In (q, a) y -> q_by q = AClient c -> failure a).
    { intros X. destruct (rstep sz hmac (c_node s) o) as [[n a1]|]; [|discriminate]. cbn in X. injection X as <- <-. now apply Nil. }
    destruct o; try (apply Hd; exact Es). injection Es as <- <-. now apply Nil.
  - unfold take in Es. destruct (rstep sz hmac (c_node s) OTake) as [[n a1]|] eqn:Er; [|discriminate]. cbn [bind] in Es.
    destruct (a_taken a1) as [[i1 e1]|]; [|injection Es as <- <-; now apply Nil]. destruct ok; cbn [negb] in Es; [|discriminate].
    destruct (match e_inner e1 with IData d => apply (c_db s) d | _ => (c_db s, None) end) as [db eff] eqn:Ed.
    destruct (callbacks _ (c_open s)) as [op said] eqn:Ec. injection Es as <- <-. exact (callbacks_error _ _ _ _ _ _ _ _ _ Ec Hr Hq).
  - injection Es as <- <-. now apply Nil.
  - injection Es as <- <-. now apply Nil.
Qed.
Lemma client_gone h : forall s s' rs c, cexec s h = Ret (s', rs) -> none_of (opens c) h -> ~ In c (c_open s) ->
  forall q a, In (q, a) (says rs) -> q_by q = AClient c -> failure a.
Proof.
  induction h as [|o h IH]; intros s s' rs c E1 Hn Ho q a Hin Hq; cbn [exec] in E1; [injection E1 as <- <-; contradiction|].
  destruct (cstep s o) as [[s1 r]|] eqn:Es; [|discriminate]. destruct (cexec s1 h) as [[s2 rs2]|] eqn:Eh; [|discriminate]. injection E1 as <- <-.
  apply none_of_cons in Hn as [N1 N2]. destruct (client_gone_step _ _ _ _ c Es N1 Ho) as [G1 G2]. unfold says in Hin. cbn in Hin. apply in_app_or in Hin as [Hin|Hin]; [eauto|].
  exact (IH _ _ _ _ Eh N2 G1 q a Hin Hq).
Qed.
Lemma after_error h : forall s s' rs code c q x y, cexec s h = Ret (s', rs) -> none_of (opens c) h -> says rs = x ++ (q, SError code) :: y -> q_by q = AClient c ->
  forall q a, In (q, a) y -> q_by q = AClient c -> failure a.
Proof.
  induction h as [|o h IH]; intros s s' rs code c q x y E1 Hn Hs Hq; cbn [exec] in E1; [injection E1 as <- <-; destruct x; discriminate|].
  destruct (cstep s o) as [[s1 r]|] eqn:Es; [|discriminate]. destruct (cexec s1 h) as [[s2 rs2]|] eqn:Eh; [|discriminate]. injection E1 as <- <-.
  apply none_of_cons in Hn as [N1 N2]. unfold says in Hs. cbn in Hs. fold (says rs2) in Hs.
  (* the error is said in this step or later *)
  assert (Hcase : (exists y1, r_said r = x ++ (q, SError code) :: y1 /\ y = y1 ++ says rs2) \/ exists x2, says rs2 = x2 ++ (q, SError code) :: y).
  { clear - Hs. revert x Hs. generalize (r_said r) as l. induction l as [|z l IH]; intros x Hs; cbn in Hs; [right; eauto|].
    destruct x as [|z' x]; cbn in Hs; injection Hs as -> Hs; [left; exists l; auto|].
    destruct (IH x Hs) as [(y1 & -> & ->)|(x2 & ->)]; [left; exists y1; auto|right; eauto]. }
  destruct Hcase as [(y1 & Hr & ->)|(x2 & H2)].
  - destruct (client_error_step _ _ _ _ _ _ _ _ _ Es Hr Hq) as [G1 G2]. intros q' a Hin Hq'. apply in_app_or in Hin as [Hin|Hin]; [eauto|].
    exact (client_gone _ _ _ _ _ Eh N2 G1 q' a Hin Hq').
  - exact (IH _ _ _ _ _ _ _ _ Eh N2 H2 Hq).
Qed.
Lemma late_step s o s' r no : reached sz hmac (c_node s) -> cstep s o = Ret (s', r) ->
  (forall q, In q (c_fwd s) -> q_no q <> no) -> no <= c_count s ->
  (forall w, In w (c_watch s) -> q_no (w_req w) = no -> n_applied (c_node s) < lc_idx (w_at w)) ->
  forall w, In w (c_watch s') -> q_no (w_req w) = no -> n_applied (c_node s') < lc_idx (w_at w).
Proof.
  intros Hr Es Hf Hc Hl.
  assert (Raft : forall o n a, rstep sz hmac (c_node s) o = Ret (n, a) -> o <> OTake -> n_applied n = n_applied (c_node s)).
  { intros o' n a X Ho. apply applied_step in X; [|assumption]. destruct (a_taken a) as [[i e]|]; [destruct X as [X _]; contradiction|assumption]. }
  assert (Same : forall s2, n_applied (c_node s2) = n_applied (c_node s) -> c_watch s2 = c_watch s ->
     forall w, In w (c_watch s2) -> q_no (w_req w) = no -> n_applied (c_node s2) < lc_idx (w_at w)).
  { intros s2 X Y. now rewrite X, Y. }
  destruct o as [tx by_ x ok rnd b|no' an|o|ok|c|c]; cbn [CoreTx.cstep] in Es.
  - unfold write in Es.
    assert (Ref : forall cd n q1, n_applied n = n_applied (c_node s) -> Ret (refuse D E respond cd q1 (set_node D n s)) = Ret (s', r) ->
      forall w, In w (c_watch s') -> q_no (w_req w) = no -> n_applied (c_node s') < lc_idx (w_at w)).
    { intros cd n q1 Y X. injection X as X. unfold refuse in X. cbn [set_node CoreTx.c_open] in X. destruct (callback q1 (inl _) (c_open s)) as [op a'] eqn:Ec. injection X as <- <-. now apply Same. }
    destruct (negb match by_ with AClient c => existsb (N.eqb c) (c_open s) | AHost => true end); [exact (Ref _ (c_node s) _ eq_refl Es)|].
    destruct (negb (c_part s)); [exact (Ref _ (c_node s) _ eq_refl Es)|].
    destruct (is_leader (c_node s)) eqn:El.
    + destruct (psize (m_voting (mship (c_node s))) <? min_voting); [exact (Ref _ (c_node s) _ eq_refl Es)|].
      destruct (rstep sz hmac (c_node s) (ORequest ok rnd x)) as [[n a1]|] eqn:Er; [|discriminate]. cbn [bind] in Es. apply Raft in Er; [|discriminate].
      destruct (a_loc a1) as [[l1 er]|] eqn:Ea; [|exact (Ref _ _ _ Er Es)]. destruct er; try exact (Ref _ _ _ Er Es). injection Es as <- <-.
      cbn. intros w Hw Hq. apply in_app_or in Hw as [Hw|[<-|[]]]; [rewrite Er; auto|cbn in Hq; lia].
    + destruct (n_role (c_node s)) as [[ld|] el| |]; try exact (Ref _ (c_node s) _ eq_refl Es). destruct b; [|exact (Ref _ (c_node s) _ eq_refl Es)]. injection Es as <- <-. now apply Same.
  - injection Es as Es. unfold answer in Es. destruct (find _ (c_fwd s)) as [q1|] eqn:Ef; [|injection Es as <- <-; now apply Same].
    destruct an as [ec|l1|]; [destruct (callback q1 (inl _) (c_open s)); injection Es as <- <-; now apply Same| |destruct (callback q1 (inl _) (c_open s)); injection Es as <- <-; now apply Same].
    injection Es as <- <-. cbn. intros w Hw Hq. apply in_app_or in Hw as [Hw|[<-|[]]]; [auto|]. apply find_some in Ef as [Ef _]. destruct (Hf _ Ef Hq).
  - assert (Hd : o <> OTake -> (let* '(n, _) := rstep sz hmac (c_node s) o in Ret (set_node D n s, quiet_res)) = Ret (s', r) -> forall w, In w (c_watch s') -> q_no (w_req w) = no -> n_applied (c_node s') < lc_idx (w_at w)).
    { intros Ho X. destruct (rstep sz hmac (c_node s) o) as [[n a1]|] eqn:Er; [|discriminate]. cbn in X. injection X as <- <-. apply Same; [exact (Raft _ _ _ Er Ho)|reflexivity]. }
    destruct o; try (apply Hd; [discriminate|exact Es]). injection Es as <- <-. now apply Same.
  - unfold take in Es. destruct (rstep sz hmac (c_node s) OTake) as [[n a1]|] eqn:Er; [|discriminate]. cbn [bind] in Es.
    apply applied_step in Er; [|assumption].
    destruct (a_taken a1) as [[i e]|]; [|injection Es as <- <-; now apply Same]. destruct Er as (_ & Ei & Ea & _).
    destruct ok; cbn [negb] in Es; [|discriminate].
    destruct (match e_inner e with IData d => apply (c_db s) d | _ => (c_db s, None) end) as [db eff].
    set (removed := match e_inner e with IMember g => (c_part s && negb (contains_me (n_me n) g))%bool | _ => false end) in *. clearbody removed.
    destruct (callbacks _ (c_open s)) as [op said] eqn:Ec. injection Es as <- <-. cbn. intros w Hw Hq.
    apply filter_In in Hw as [Hw Hn]. destruct removed; [contradiction|]. apply Bool.negb_true_iff, N.eqb_neq in Hn. specialize (Hl w Hw Hq). lia.
  - injection Es as <- <-. now apply Same.
  - injection Es as <- <-. now apply Same.
Qed.
(* a watcher of an index already applied stays until the replica is removed *)
Lemma stuck h : forall s s' rs w, reached sz hmac (c_node s) -> cexec s h = Ret (s', rs) -> none_of (removes (n_me (c_node s))) rs ->
  In w (c_watch s) -> lc_idx (w_at w) <= n_applied (c_node s) -> In w (c_watch s').
Proof.
  induction h as [|o h IH]; intros s s' rs w Hr E1 Hn Hw Hi; cbn [exec] in E1; [now injection E1 as <- <-|].
  destruct (cstep s o) as [[s1 r]|] eqn:Es; [|discriminate]. destruct (cexec s1 h) as [[s2 rs2]|] eqn:Eh; [|discriminate]. injection E1 as <- <-.
  apply none_of_cons in Hn as [N1 N2].
  assert (K : reached sz hmac (c_node s1) /\ n_me (c_node s1) = n_me (c_node s) /\ n_applied (c_node s) <= n_applied (c_node s1) /\ In w (c_watch s1)).
  { clear IH Eh N2.
    assert (Raft : forall o n a, rstep sz hmac (c_node s) o = Ret (n, a) -> reached sz hmac n /\ n_me n = n_me (c_node s) /\ n_applied (c_node s) <= n_applied n).
    { intros o' n a X. split; [eapply reached_step; eauto|]. destruct (reached_ok sz hmac _ Hr) as [A HA].
      destruct (step_ok1 sz hmac _ A o' n a HA X) as (A' & _ & Ev & _ & Ht & _). split; [apply Ev|].
      destruct (a_taken a) as [[i e]|]; destruct Ht as [Ht Ht']; [|lia]. lia. }
    assert (Same : forall s2, c_node s2 = c_node s -> c_watch s2 = c_watch s -> reached sz hmac (c_node s2) /\ n_me (c_node s2) = n_me (c_node s) /\ n_applied (c_node s) <= n_applied (c_node s2) /\ In w (c_watch s2)).
    { intros s3 X Y. rewrite X, Y. repeat split; auto. lia. }
    destruct o as [tx by_ x ok rnd b|no an|o|ok|c|c]; cbn [CoreTx.cstep] in Es.
    - unfold write in Es.
      assert (Ref : forall cd n q1, reached sz hmac n /\ n_me n = n_me (c_node s) /\ n_applied (c_node s) <= n_applied n -> Ret (refuse D E respond cd q1 (set_node D n s)) = Ret (s1, r) ->
        reached sz hmac (c_node s1) /\ n_me (c_node s1) = n_me (c_node s) /\ n_applied (c_node s) <= n_applied (c_node s1) /\ In w (c_watch s1)).
      { intros cd n q1 (Y1 & Y2 & Y3) X. injection X as X. unfold refuse in X. cbn [set_node CoreTx.c_open] in X. destruct (callback q1 (inl _) (c_open s)) as [op a'] eqn:Ec. injection X as <- <-. cbn. auto. }
      assert (Now : reached sz hmac (c_node s) /\ n_me (c_node s) = n_me (c_node s) /\ n_applied (c_node s) <= n_applied (c_node s)) by (repeat split; auto; lia).
      destruct (negb match by_ with AClient c => existsb (N.eqb c) (c_open s) | AHost => true end); [exact (Ref _ (c_node s) _ Now Es)|].
      destruct (negb (c_part s)); [exact (Ref _ (c_node s) _ Now Es)|].
      destruct (is_leader (c_node s)) eqn:El.
      + destruct (psize (m_voting (mship (c_node s))) <? min_voting); [exact (Ref _ (c_node s) _ Now Es)|].
        destruct (rstep sz hmac (c_node s) (ORequest ok rnd x)) as [[n a1]|] eqn:Er; [|discriminate]. cbn [bind] in Es. apply Raft in Er.
        destruct (a_loc a1) as [[l1 er]|] eqn:Ea; [|exact (Ref _ _ _ Er Es)]. destruct er; try exact (Ref _ _ _ Er Es). injection Es as <- <-.
        destruct Er as (Y1 & Y2 & Y3). cbn. repeat split; auto. apply in_or_app; now left.
      + destruct (n_role (c_node s)) as [[ld|] el| |]; try exact (Ref _ (c_node s) _ Now Es). destruct b; [|exact (Ref _ (c_node s) _ Now Es)]. injection Es as <- <-. now apply Same.
    - injection Es as Es. unfold answer in Es. destruct (find _ (c_fwd s)) as [q1|] eqn:Ef; [|injection Es as <- <-; now apply Same].
      destruct an as [ec|l1|]; [destruct (callback q1 (inl _) (c_open s)); injection Es as <- <-; now apply Same| |destruct (callback q1 (inl _) (c_open s)); injection Es as <- <-; now apply Same].
      injection Es as <- <-. cbn. repeat split; auto; [lia|]. apply in_or_app; now left.
    - assert (Hd : (let* '(n, _) := rstep sz hmac (c_node s) o in Ret (set_node D n s, quiet_res)) = Ret (s1, r) -> reached sz hmac (c_node s1) /\ n_me (c_node s1) = n_me (c_node s) /\ n_applied (c_node s) <= n_applied (c_node s1) /\ In w (c_watch s1)).
      { intros X. destruct (rstep sz hmac (c_node s) o) as [[n a1]|] eqn:Er; [|discriminate]. cbn in X. injection X as <- <-. apply Raft in Er. cbn. tauto. }
      destruct o; try (apply Hd; exact Es). injection Es as <- <-. now apply Same.
    - unfold take in Es. destruct (rstep sz hmac (c_node s) OTake) as [[n a1]|] eqn:Er; [|discriminate]. cbn [bind] in Es.
      pose proof (Raft _ _ _ Er) as (R1 & R2 & R3). apply applied_step in Er; [|assumption].
      destruct (a_taken a1) as [[i e]|]; [|injection Es as <- <-; cbn; auto]. destruct Er as (_ & Ei & _).
      destruct ok; cbn [negb] in Es; [|discriminate].
      destruct (match e_inner e with IData d => apply (c_db s) d | _ => (c_db s, None) end) as [db eff].
      set (removed := match e_inner e with IMember g => (c_part s && negb (contains_me (n_me n) g))%bool | _ => false end) in *.
      destruct (callbacks _ (c_open s)) as [op said] eqn:Ec. injection Es as <- <-. cbn. do 3 (split; [auto|]).
      assert (Hrm : removed = false).
      { unfold removed. unfold removes in N1. cbn in N1. destruct e as [te ie he]; cbn [e_inner] in *. destruct ie as [|d|g|m]; auto. rewrite R2, N1. apply Bool.andb_false_r. }
      rewrite Hrm. apply filter_In. split; [assumption|]. apply Bool.negb_true_iff, N.eqb_neq. lia.
    - injection Es as <- <-. now apply Same.
    - injection Es as <- <-. now apply Same. }
  destruct K as (K1 & K2 & K3 & K4). apply (IH s1 s2 rs2 w); auto; [rewrite K2; exact N2|lia].
Qed.
End P.
