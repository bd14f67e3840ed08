(* The order in which a group answers: proofs. *)
From Coq Require Import Permutation.
From Verif Require Import CoreTxSpec CoreTxProofs Group GroupSpec GroupOrderSpec MembershipSpec MembershipProofs RaftChain RaftNode RaftRun
  RaftNetSpec RaftNetProofs RaftMoveSpec RaftMoveProofs RaftShape RaftFreshProofs GroupProofs UtilProofs.

Lemma fresh_taken L0 now past soup tk tk' rolled : fresh L0 (Net now past soup tk rolled) -> fresh L0 (Net now past soup tk' rolled).
Proof. intros []. now constructor. Qed.
Lemma fresh_again L0 k x now past soup tk rolled : fresh L0 (Net now past soup tk rolled) -> lookup k now = Some x -> In (k, x) past ->
  fresh L0 (Net (put k x now) (past ++ [(k, x)]) soup tk rolled).
Proof.
  intros [F1 F2 F3 F4] El Hin. cbn [w_now w_past w_soup w_taken w_rolled] in *.
  assert (Hb : forall y, In y (past ++ [(k, x)]) -> In y past) by (intros y Hy; apply in_app_or in Hy as [Hy|[<-|[]]]; assumption).
  assert (Hl : forall k1, lookup k1 (put k x now) = lookup k1 now).
  { intros k1. destruct (list_eq_dec N.eq_dec k1 k) as [->|Hne]; [now rewrite lookup_put_same|now rewrite lookup_put_other]. }
  constructor; cbn [w_now w_past w_soup w_taken w_rolled].
  - intros k1 n A j e H1 H2 H3. destruct (F1 k1 n A j e (Hb _ H1) H2 H3) as (k0 & n0 & A0 & X & Y). exists k0, n0, A0. split; [apply in_or_app; auto|assumption].
  - intros k1 n A. rewrite Hl. intros H1 H2 k2 n1 A1 j e H3. apply (F2 k1 n A H1 H2 k2 n1). auto.
  - intros k1 n A n0 A0. rewrite Hl. intros H1 H2. apply (F3 k1 n A n0 A0); auto.
  - intros k1 n1 A1 k2 n2 A2 j e1 e2 H1 H2. apply (F4 k1 n1 A1 k2 n2 A2); auto.
Qed.
Lemma fresh_back L0 k x now past soup tk rolled : fresh L0 (Net now past soup tk rolled) -> In (k, x) past ->
  (forall n A, In (k, (n, A)) past -> is_leader n = false) -> fresh L0 (Net (put k x now) past soup tk (pins k rolled)).
Proof.
  intros [F1 F2 F3 F4] Hin Hc. cbn [w_now w_past w_soup w_taken w_rolled] in *. constructor; cbn [w_now w_past w_soup w_taken w_rolled]; auto.
  - intros k1 n A Hl. destruct (list_eq_dec N.eq_dec k1 k) as [->|Hne].
    + rewrite lookup_put_same in Hl. injection Hl as ->. rewrite (Hc _ _ Hin). discriminate.
    + rewrite lookup_put_other in Hl by assumption. exact (F2 k1 n A Hl).
  - intros k1 n A n0 A0 Hl H1 L. destruct (list_eq_dec N.eq_dec k1 k) as [->|Hne].
    + rewrite (Hc _ _ H1) in L. discriminate.
    + rewrite lookup_put_other in Hl by assumption. eapply F3; eauto.
Qed.

Definition said_of {E} (l : list (seen E)) : list (req * say) := flat_map (fun x => match x with Said _ q a => [(q, a)] | _ => [] end) l.
Definition said_by {E} (k : bytes) (l : list (bytes * seen E)) : list (req * say) :=
  flat_map (fun x => if beq (fst x) k then match snd x with Said _ q a => [(q, a)] | _ => [] end else []) l.
Lemma said_by_app {E} k (a b : list (bytes * seen E)) : said_by k (a ++ b) = said_by k a ++ said_by k b.
Proof. apply flat_map_app. Qed.
Lemma beq_same k : beq k k = true. Proof. now apply beq_eq. Qed.
Lemma beq_other k j : k <> j -> beq k j = false.
Proof. intros H. destruct (beq k j) eqn:B; [|reflexivity]. apply beq_eq in B. contradiction. Qed.
Lemma said_by_pair {E} k j (l : list (seen E)) : said_by k (map (pair j) l) = if beq j k then said_of l else [].
Proof.
  unfold said_by, said_of. rewrite flat_map_concat_map, map_map, <- flat_map_concat_map. cbn [fst snd]. destruct (beq j k); [reflexivity|].
  induction l; cbn; auto.
Qed.
Lemma last_ran_app {E} k (a b : list (bytes * seen E)) : last_ran k (a ++ b) = match last_ran k b with Some i => Some i | None => last_ran k a end.
Proof.
  unfold last_ran. rewrite fold_left_app. generalize (fold_left (fun acc x => match snd x with Took _ i _ _ => if beq (fst x) k then Some i else acc | _ => acc end) a None) as z.
  induction b as [|[j x] b IH] using rev_ind; intros z; [reflexivity|]. rewrite !fold_left_app. cbn [fold_left fst snd].
  destruct x; auto. destruct (beq j k); auto.
Qed.

Lemma app_split {A} (a b pre post : list A) x : a ++ b = pre ++ x :: post ->
  (exists c, a = pre ++ x :: c /\ post = c ++ b) \/ (exists c, pre = a ++ c /\ b = c ++ x :: post).
Proof.
  revert pre. induction a as [|y a IH]; intros pre H; cbn [app] in H; [right; exists pre; auto|].
  destruct pre as [|z pre]; cbn [app] in H.
  - injection H as <- H. left. exists a. auto.
  - injection H as <- H. destruct (IH pre H) as [(c & -> & ->)|(c & -> & ->)]; [left|right]; exists c; auto.
Qed.
Lemma map_split {A B} (f : A -> B) l pre x post : map f l = pre ++ x :: post -> exists p y q, l = p ++ y :: q /\ pre = map f p /\ x = f y /\ post = map f q.
Proof.
  revert pre. induction l as [|z l IH]; intros pre H; [destruct pre; discriminate|]. cbn [map] in H. destruct pre as [|w pre]; cbn [app] in H.
  - injection H as <- <-. exists [], z, l. auto.
  - injection H as <- H. destruct (IH pre H) as (p & y & q & -> & -> & -> & ->). exists (z :: p), y, q. auto.
Qed.
Lemma in_split_mid {A} (pre post : list A) x : In x (pre ++ x :: post). Proof. apply in_or_app. right. now left. Qed.

Section Order.
Variable sz : sizes.
Variable hmac : bytes -> bytes -> bytes.
Variables D E : Type.
Variable apply : D -> bytes -> D * option E.
Variable respond : N -> E -> option bytes.
Variable min_voting : N.
Variable M : members.
Variable sm : N.
Variable L0 : list entry.
Variable db0 : D.
Variable Fm : members -> Prop.
Hypothesis HFM : Fm M.
Hypothesis Hwf : forall m, Fm m -> wf_members m.
Hypothesis Hov : overlapping sm Fm.
Variable F : list (bytes * seen E).
Notation core := (core D).
Notation cstep := (cstep sz hmac D E apply respond min_voting).
Notation c_node := (c_node D). Notation c_db := (c_db D). Notation c_watch := (c_watch D).
Notation c_fwd := (c_fwd D). Notation c_count := (c_count D).
Notation raft_call := (raft_call D min_voting).
Notation group := (group D E).
Notation g_now := (g_now D E). Notation g_past := (g_past D E). Notation g_soup := (g_soup D E). Notation g_fwd := (g_fwd D E).
Notation g_ans := (g_ans D E). Notation g_seen := (g_seen D E). Notation g_rolled := (g_rolled D E).
Notation Asked := (Asked E). Notation Took := (Took E). Notation Said := (Said E).
Notation move := (move D E).
Notation gall := (gall hmac D E apply respond sm L0 db0 Fm F).
Notation stepped := (stepped sz hmac D E apply respond Fm F).
Notation inv := (inv sz hmac D).

(* a place in the log that no log has had *)
Definition fresh_loc (g : group) (l : loc) : Prop :=
  llen L0 < lc_idx l /\ forall k s A e, gwas g k s A -> nth_entry A (lc_idx l) = Some e -> e_term e <> lc_term l.
Definition in_log (A : list entry) (l : loc) : Prop := exists e, nth_entry A (lc_idx l) = Some e /\ e_term e = lc_term l.
(* the location l was given to request number no of k *)
Definition handed (g : group) (k : bytes) (no : N) (l : loc) : Prop :=
  In (k, (no, FLocated l)) (g_ans g) \/ exists s A w, gwas g k s A /\ In w (c_watch s) /\ q_no (w_req w) = no /\ w_at w = l.
Record ordered (g : group) : Prop := MkOrdered {
  o_fresh : fresh L0 (net_of g);
  o_some : forall k no l, handed g k no l -> exists k1 s A, gwas g k1 s A /\ in_log A l;
  o_one : forall k1 no1 l1 k2 no2 l2, handed g k1 no1 l1 -> handed g k2 no2 l2 -> lc_idx l1 = lc_idx l2 -> lc_term l1 = lc_term l2 -> k1 = k2 /\ no1 = no2;
  o_low : forall k s A no l, ~ In k (g_rolled g) -> lookup k (g_now g) = Some (s, A) -> handed g k no l -> no <= c_count s;
  o_core : forall k s A, ~ In k (g_rolled g) -> lookup k (g_now g) = Some (s, A) -> exists h rs, inv h rs s /\ said_by k (g_seen g) = says rs;
  o_said : forall k q a pre post, g_seen g = pre ++ (k, Said q a) :: post -> success a ->
    exists i e eff l, last_ran k pre = Some i /\ saw g k (Took i e eff) /\ handed g k (q_no q) l /\ lc_idx l = i /\ lc_term l = e_term e /\
      fits_effect respond q a eff /\ (~ In k (g_rolled g) -> saw g k (Asked q (e_inner e)))
}.
(* a step, as far as order goes *)
Record ostep (g : group) (k : bytes) (s s' : core) (A' : list entry) (ans : list (bytes * (N * fanswer))) (sn : list (seen E))
    (new : option (bytes * N * loc)) : Prop := MkOstep {
  os_ans : forall to no l, In (to, (no, FLocated l)) ans -> new = Some (to, no, l);
  os_watch : forall w, In w (c_watch s') -> In w (c_watch s) \/ new = Some (k, q_no (w_req w), w_at w) \/
    In (k, (q_no (w_req w), FLocated (w_at w))) (g_ans g);
  os_new : forall to no l, new = Some (to, no, l) -> fresh_loc g l /\ in_log A' l /\
    ((exists x, In (to, (no, x)) (g_fwd g)) \/ (to = k /\ no <= c_count s'));
  os_core : (s' = s /\ said_of sn = []) \/ exists o r, cstep s o = Ret (s', r) /\ said_of sn = r_said r;
  os_said : forall q a pre post, sn = pre ++ Said q a :: post -> success a ->
    exists i e w eff, last_ran k (map (pair k) pre) = Some i /\ In (Took i e eff) sn /\ In w (c_watch s) /\ w_req w = q /\ matches i e (w_at w) /\
      fits_effect respond q a eff;
  os_head : forall q x pre post, sn = pre ++ Asked q x :: post -> pre = [] /\ q_no q = c_count s + 1
}.

Lemma handed_move g k s' A' msgs fwd ans sn k1 no l : handed (move k s' A' msgs fwd ans sn g) k1 no l ->
  handed g k1 no l \/ In (k1, (no, FLocated l)) ans \/ (k1 = k /\ exists w, In w (c_watch s') /\ q_no (w_req w) = no /\ w_at w = l).
Proof.
  intros [H|(s & A & w & H & H1 & H2 & H3)].
  - cbn [Group.move Group.g_ans] in H. apply in_app_or in H as [H|H]; [left; now left|auto].
  - apply gwas_move in H as [H|(-> & -> & ->)]; [left; right; exists s, A, w; auto|]. right; right. eauto.
Qed.
Lemma handed_old g k s' A' msgs fwd ans sn k1 no l : handed g k1 no l -> handed (move k s' A' msgs fwd ans sn g) k1 no l.
Proof.
  intros [H|(s & A & w & H & H1)]; [left; cbn [Group.move Group.g_ans]; apply in_or_app; auto|]. right. exists s, A, w. split; [apply gwas_move; auto|assumption].
Qed.
(* a location is handed on, or new *)
Lemma handed_new g k s A s' A' msgs fwd ans sn new k1 no l : gwas g k s A -> ostep g k s s' A' ans sn new ->
  handed (move k s' A' msgs fwd ans sn g) k1 no l -> handed g k1 no l \/ new = Some (k1, no, l).
Proof.
  intros Hin [Oa Ow On Oc Os Oh] H. apply handed_move in H as [H|[H|(-> & w & H1 & H2 & H3)]]; auto.
  destruct (Ow w H1) as [H|[H|H]]; rewrite ?H2, ?H3 in H; auto.
  - left. right. exists s, A, w. auto.
  - left. left. assumption.
Qed.

(* the raft part of a step *)
Lemma move_fresh g k s A s' A' msgs fwd ans sn tk : gall g -> unclashed (map strip (g_past g)) -> psize (g_rolled g) <= sm ->
  lookup k (g_now g) = Some (s, A) -> stepped g k s A s' A' msgs fwd ans sn tk -> fresh L0 (net_of g) ->
  fresh L0 (net_of (move k s' A' msgs fwd ans sn g)).
Proof.
  intros HI Hun Hro El Hst HF.
  assert (Hl : lookup k (w_now (net_of g)) = Some (c_node s, A)) by (unfold net_of; cbn [w_now]; rewrite strip_lookup, El; reflexivity).
  pose proof (q_now _ _ _ _ _ _ _ _ _ _ g HI k _ El) as Hin.
  assert (Hnet : net_of (move k s' A' msgs fwd ans sn g) = Net (put k (c_node s', A') (w_now (net_of g))) (w_past (net_of g) ++ [(k, (c_node s', A'))])
                   (w_soup (net_of g) ++ map (pair k) msgs) [] (w_rolled (net_of g))).
  { unfold net_of; cbn [Group.move Group.g_now Group.g_past Group.g_soup Group.g_rolled w_now w_past w_soup w_rolled].
    rewrite strip_put, map_app. reflexivity. }
  rewrite Hnet. destruct (st_raft _ _ _ _ _ _ _ _ _ _ _ _ _ _ _ _ _ _ _ Hst) as [(Hn & -> & -> & _)|(ro & a & Hp & Hr & -> & -> & _)].
  - rewrite Hn. cbn [map]. rewrite app_nil_r. apply fresh_again; [exact HF|exact Hl|apply strip_in; exact Hin].
  - pose proof (rm_inv _ _ _ _ _ _ _ _ _ _ _ _ (raft_move sz hmac M sm L0 Fm HFM Hwf (okf E Fm F) (okf_none E Fm F) (okf_mem E Fm F) (net_of g) k (c_node s) A ro (c_node s') a (q_raft _ _ _ _ _ _ _ _ _ _ g HI) Hun Hp Hl Hr)) as HI'.
    assert (HA : ginv hmac sm L0 Fm (okf E Fm F) (act sz hmac k ro (net_of g))).
    { apply (act_inv sz hmac M sm L0 Fm HFM Hwf (okf E Fm F) (okf_none E Fm F) (okf_mem E Fm F)); [exact (q_raft _ _ _ _ _ _ _ _ _ _ g HI)|].
      intros n0 A0 E0. eapply (rpre_op hmac M sm L0 Fm HFM Hwf (okf E Fm F) (okf_mem E Fm F)); try eassumption. exact (q_raft _ _ _ _ _ _ _ _ _ _ g HI). }
    assert (HX : fresh L0 (act sz hmac k ro (net_of g))).
    { apply (act_fresh sz hmac M sm L0 Fm HFM Hwf Hov (okf E Fm F)); auto; [exact (q_raft _ _ _ _ _ _ _ _ _ _ g HI)|].
      intros n0 A0 j e E0 Hm. destruct ro; try (destruct Hm as (a1 & a2 & r & f & m' & prev & pterm & commit & es & promise & ph & i' & X & _); discriminate).
      destruct Hp as [to [Hs _]]. eapply (from_msg_sent hmac M sm L0 Fm HFM Hwf (okf E Fm F) (net_of g)); try eassumption. exact (q_raft _ _ _ _ _ _ _ _ _ _ g HI). }
    unfold act in HX. rewrite Hl, Hr in HX. cbv zeta in HX. eapply fresh_taken. exact HX.
Qed.
Lemma loc_fresh g k s A ro n' a l : gall g -> unclashed (map strip (g_past g)) -> fresh L0 (net_of g) -> lookup k (g_now g) = Some (s, A) ->
  rpre (okf E Fm F) (net_of g) k ro -> rstep sz hmac (c_node s) ro = Ret (n', a) -> a_loc a = Some (l, RE_OK) ->
  fresh_loc g l /\ in_log (regrow A (n_log n')) l.
Proof.
  intros HI Hun HF El Hp Hr Ha.
  assert (Hl : lookup k (w_now (net_of g)) = Some (c_node s, A)) by (unfold net_of; cbn [w_now]; rewrite strip_lookup, El; reflexivity).
  pose proof (q_raft _ _ _ _ _ _ _ _ _ _ g HI) as HG. pose proof (q_now _ _ _ _ _ _ _ _ _ _ g HI k _ El) as Hin.
  destruct (gi_past _ _ _ _ _ _ HG k (c_node s) A (strip_in _ _ _ _ Hin)) as [HR Ho].
  pose proof (rpre_op hmac M sm L0 Fm HFM Hwf (okf E Fm F) (okf_mem E Fm F) (net_of g) k ro _ _ HG Hun Hp Hl) as Hop.
  destruct (rip_step sz hmac M sm L0 Fm HFM Hwf (okf E Fm F) (okf_none E Fm F) (okf_mem E Fm F) _ k (c_node s) A ro n' a HR Ho Hop Hr) as [n1 [A' [_ [_ [_ [_ [_ Hloc]]]]]]].
  rewrite Ha in Hloc. destruct Hloc as (ok & rnd & x & _ & Hld & Ht & Hi & _). split.
  - destruct (ri_k _ _ _ _ _ _ _ _ _ _ _ HR) as [[c Hc] _]. split.
    + rewrite Hi, Hc, llen_app. lia.
    + intros k1 t B e H1 H2 H3.
      assert (Hgt : llen L0 < lc_idx l) by (rewrite Hi, Hc, llen_app; lia).
      pose proof (fr_has L0 _ HF k (c_node s) A Hl Hld k1 (c_node t) B (lc_idx l) e (strip_in _ _ _ _ H1) Hgt H2 ltac:(congruence)) as X.
      apply nth_entry_len in X. lia.
  - pose proof (rm_loc _ _ _ _ _ _ _ _ _ _ _ _ (raft_move sz hmac M sm L0 Fm HFM Hwf (okf E Fm F) (okf_none E Fm F) (okf_mem E Fm F) (net_of g) k (c_node s) A ro n' a HG Hun Hp Hl Hr)) as X.
    rewrite Ha in X. destruct X as (ok' & rnd' & x' & _ & X). eexists. split; [exact X|reflexivity].
Qed.

Lemma move_ordered g k s A s' A' msgs fwd ans sn tk new : gall g -> unclashed (map strip (g_past g)) -> psize (g_rolled g) <= sm ->
  lookup k (g_now g) = Some (s, A) -> stepped g k s A s' A' msgs fwd ans sn tk -> ostep g k s s' A' ans sn new -> ordered g ->
  gall (move k s' A' msgs fwd ans sn g) -> ordered (move k s' A' msgs fwd ans sn g).
Proof.
  intros HI Hun Hro El Hst Hos HO HI'. pose proof (move_fresh _ _ _ _ _ _ _ _ _ _ _ HI Hun Hro El Hst (o_fresh g HO)) as HF'.
  pose proof (q_now _ _ _ _ _ _ _ _ _ _ g HI k _ El) as Hin. fold (gwas g k s A) in Hin.
  set (g' := move k s' A' msgs fwd ans sn g) in *.
  assert (Hnew : forall k1 no l, handed g' k1 no l -> handed g k1 no l \/ new = Some (k1, no, l)).
  { intros k1 no l H. eapply handed_new; [exact Hin|exact Hos|exact H]. }
  assert (Hgw : forall k1 t B, gwas g k1 t B -> gwas g' k1 t B) by (intros; apply gwas_move; auto).
  assert (Hsw : forall k1 x, saw g k1 x -> saw g' k1 x) by (intros; apply saw_move; auto).
  assert (Hsn : forall x, In x sn -> saw g' k x) by (intros; apply saw_move; auto).
  assert (Hgk : gwas g' k s' A') by (apply gwas_move; auto).
  assert (Hlk : forall k1 t B, lookup k1 (g_now g') = Some (t, B) -> (k1 = k /\ t = s' /\ B = A') \/ (k1 <> k /\ lookup k1 (g_now g) = Some (t, B))).
  { intros k1 t B H. unfold g' in H; cbn [Group.move Group.g_now] in H. destruct (list_eq_dec N.eq_dec k1 k) as [->|Hne].
    - rewrite lookup_put_same in H. injection H as <- <-. auto.
    - rewrite lookup_put_other in H by assumption. auto. }
  constructor.
  - exact HF'.
  - intros k1 no l H. destruct (Hnew _ _ _ H) as [H1|H1].
    + destruct (o_some g HO _ _ _ H1) as (k2 & t & B & H2 & H3). exists k2, t, B. auto.
    + destruct (os_new _ _ _ _ _ _ _ _ Hos _ _ _ H1) as (_ & H2 & _). exists k, s', A'. auto.
  - assert (Hd : forall k1 no1 l1 k2 no2 l2, handed g k1 no1 l1 -> new = Some (k2, no2, l2) -> lc_idx l1 = lc_idx l2 -> lc_term l1 = lc_term l2 -> False).
    { intros k1 no1 l1 k2 no2 l2 H1 H2 Hi Ht. destruct (o_some g HO _ _ _ H1) as (k3 & t & B & H3 & e & H4 & H5).
      destruct (os_new _ _ _ _ _ _ _ _ Hos _ _ _ H2) as ((_ & H6) & _). apply (H6 k3 t B e); congruence. }
    intros k1 no1 l1 k2 no2 l2 H1 H2 Hi Ht. destruct (Hnew _ _ _ H1) as [X1|X1], (Hnew _ _ _ H2) as [X2|X2].
    + eapply (o_one g HO); eassumption.
    + exfalso; eapply Hd; eassumption.
    + exfalso; eapply Hd; try eassumption; congruence.
    + rewrite X1 in X2. injection X2 as <- <- _. auto.
  - intros k1 t B no l Hnr Hl H. change (g_rolled g') with (g_rolled g) in Hnr. destruct (Hnew _ _ _ H) as [H1|H1].
    + destruct (Hlk _ _ _ Hl) as [(-> & -> & ->)|(Hne & Hl1)]; [|eapply (o_low g HO); eassumption].
      pose proof (o_low g HO k s A no l Hnr El H1). pose proof (st_cnt _ _ _ _ _ _ _ _ _ _ _ _ _ _ _ _ _ _ _ Hst). lia.
    + destruct (os_new _ _ _ _ _ _ _ _ Hos _ _ _ H1) as (_ & _ & [(x & H2)|[-> H2]]).
      * destruct (q_fwd _ _ _ _ _ _ _ _ _ _ g HI _ _ _ H2) as (q & <- & H3). eapply (q_cnt _ _ _ _ _ _ _ _ _ _ g' HI'); [exact Hnr|exact Hl|apply Hsw; exact H3].
      * destruct (Hlk _ _ _ Hl) as [(_ & -> & ->)|(Hne & _)]; [assumption|contradiction].
  - intros k1 t B Hnr Hl. change (g_rolled g') with (g_rolled g) in Hnr. unfold g'; cbn [Group.move Group.g_seen]. rewrite said_by_app, said_by_pair.
    destruct (Hlk _ _ _ Hl) as [(-> & -> & ->)|(Hne & Hl1)].
    + rewrite beq_same. destruct (o_core g HO k s A Hnr El) as (h & rs & H1 & H2).
      destruct (os_core _ _ _ _ _ _ _ _ Hos) as [[-> H3]|(o & r & H3 & H4)].
      * exists h, rs. rewrite H3, app_nil_r. auto.
      * exists (h ++ [o]), (rs ++ [r]). split; [eapply inv_step; eassumption|]. rewrite says_last, H2, H4. reflexivity.
    + rewrite beq_other by congruence. rewrite app_nil_r. exact (o_core g HO k1 t B Hnr Hl1).
  - intros k1 q a pre post Hs Hsuc. unfold g' in Hs; cbn [Group.move Group.g_seen] in Hs. apply app_split in Hs as [(c & H1 & H2)|(c & -> & H1)].
    + destruct (o_said g HO k1 q a pre c H1 Hsuc) as (i & e & eff & l & H3 & H4 & H5 & H6 & H7 & H8 & H9). exists i, e, eff, l.
      split; [assumption|]. split; [auto|]. split; [apply handed_old; assumption|]. split; [assumption|]. split; [assumption|]. split; [assumption|].
      intros Hn. apply Hsw. auto.
    + apply map_split in H1 as (p & y & z & H1 & -> & H2 & ->). injection H2 as -> <-.
      destruct (os_said _ _ _ _ _ _ _ _ Hos q a p z H1 Hsuc) as (i & e & w & eff & H3 & H4 & H5 & H6 & (H7 & H8 & H9) & H10).
      exists i, e, eff, (w_at w). rewrite last_ran_app, H3. split; [reflexivity|]. split; [auto|].
      split; [right; exists s, A, w; subst q; auto|]. split; [assumption|]. split; [assumption|]. split; [assumption|].
      intros Hn. change (g_rolled g') with (g_rolled g) in Hn. destruct (q_watch _ _ _ _ _ _ _ _ _ _ g HI k s A w Hn El H5) as (x & H11 & (k2 & t & B & H12 & H13)).
      destruct (q_took _ _ _ _ _ _ _ _ _ _ g' HI' k i e eff (Hsn _ H4)) as (t' & B' & H14 & H15 & H16 & H17 & _).
      rewrite H7 in H13.
      pose proof (fr_match L0 _ HF' _ _ _ _ _ _ i _ _ (strip_in _ _ _ _ (Hgw _ _ _ H12)) (strip_in _ _ _ _ H14) H15 H13 H17 H8) as X. subst e. cbn [e_inner].
      rewrite <- H6. auto.
Qed.

(* --- the steps ------------------------------------------------------------------- *)
Lemma said_of_seen s o r : said_of (seen_in D E apply s o r) = r_said r.
Proof.
  assert (Ha : forall a b : list (seen E), said_of (a ++ b) = said_of a ++ said_of b) by (intros; apply flat_map_app). unfold seen_in. rewrite !Ha.
  assert (H1 : said_of (match o with CWrite tx by_ x _ _ _ => [Asked (Req (c_count s + 1) tx by_) x] | _ => [] end : list (seen E)) = []) by now destruct o.
  assert (H2 : said_of match r_taken r with Some (i, e) => [Took i e (effect D E apply (c_db s) e)] | None => [] end = []) by now destruct (r_taken r) as [[i e]|].
  rewrite H1, H2. cbn [app]. unfold said_of. induction (r_said r) as [|[q a] l IH]; [reflexivity|]. cbn [map flat_map fst snd app]. now rewrite IH.
Qed.
Lemma seen_in_split s o r q a pre post i e : r_taken r = Some (i, e) -> seen_in D E apply s o r = pre ++ Said q a :: post ->
  forall k, last_ran k (map (pair k) pre) = Some i.
Proof.
  intros Ht H k. unfold seen_in in H. rewrite Ht in H. apply app_split in H as [(c & H & _)|(c & -> & H)].
  { exfalso. destruct o; try (destruct pre; discriminate). destruct pre as [|y [|z pre]]; discriminate. }
  cbn [app] in H. destruct c as [|y c]; [discriminate|]. cbn [app] in H. injection H as <- H.
  rewrite map_app, last_ran_app. cbn [map]. change (last_ran k ((k, Took i e (effect D E apply (c_db s) e)) :: map (pair k) c))
    with (last_ran k ([(k, Took i e (effect D E apply (c_db s) e))] ++ map (pair k) c)). rewrite last_ran_app.
  assert (Hc : last_ran k (map (pair k) c) = None).
  { apply map_split in H as (p & z & w & _ & -> & _). rewrite map_map. clear. induction p as [|x p IH] using rev_ind; [reflexivity|].
    rewrite map_app, last_ran_app. cbn [map]. unfold last_ran at 1. cbn. exact IH. }
  rewrite Hc. unfold last_ran. cbn [fold_left fst snd]. now rewrite beq_same.
Qed.
Lemma core_ostep g k s A o s' r : gall g -> unclashed (map strip (g_past g)) -> fresh L0 (net_of g) -> lookup k (g_now g) = Some (s, A) -> copre D E Fm g k o ->
  cstep s o = Ret (s', r) -> (forall x, In x (seen_in D E apply s o r) -> In (k, x) F) ->
  exists new, ostep g k s s' (log_after D A (raft_call s o) s') [] (seen_in D E apply s o r) new.
Proof.
  intros HI Hun HFr El Hp Ec HF. pose proof (cstep_view sz hmac D E apply respond min_voting s o s' r Ec) as [vw_raft vw_db vw_count vw_fwd vw_watch vw_said vw_forw].
  assert (Hsaid : forall q a pre post, seen_in D E apply s o r = pre ++ Said q a :: post -> success a ->
    exists i e w eff, last_ran k (map (pair k) pre) = Some i /\ In (Took i e eff) (seen_in D E apply s o r) /\ In w (c_watch s) /\ w_req w = q /\ matches i e (w_at w) /\ fits_effect respond q a eff).
  { intros q a pre post H Hs. assert (Hin : In (q, a) (r_said r)) by (apply (seen_in_said D E apply s o r); rewrite H; apply in_split_mid).
    destruct (vw_said q a Hin Hs) as (i & e & w & H1 & H2 & H3 & H4 & H5). exists i, e, w, (effect D E apply (c_db s) e).
    split; [eapply seen_in_split; eassumption|]. split; [apply seen_in_took; rewrite <- effect_run; auto|]. split; [assumption|]. split; [assumption|]. split; [assumption|].
    unfold fits_effect. destruct (q_by q); assumption. }
  assert (Hhead : forall q x pre post, seen_in D E apply s o r = pre ++ Asked q x :: post -> pre = [] /\ q_no q = c_count s + 1).
  { intros q x pre post H. unfold seen_in in H. apply app_split in H as [(c & H & _)|(c & -> & H)].
    - destruct o; try (destruct pre; discriminate). destruct pre as [|y [|z pre]]; try discriminate. injection H as <- _ _. auto.
    - exfalso. assert (X : In (Asked q x) (c ++ Asked q x :: post)) by apply in_split_mid. rewrite <- H in X. apply in_app_or in X as [X|X].
      + destruct (r_taken r) as [[i e]|]; [destruct X as [X|[]]; discriminate|contradiction].
      + apply in_map_iff in X as [z [X _]]. discriminate. }
  assert (Hcore : (s' = s /\ said_of (seen_in D E apply s o r) = []) \/ exists o0 r0, cstep s o0 = Ret (s', r0) /\ said_of (seen_in D E apply s o r) = r_said r0).
  { right. exists o, r. split; [assumption|apply said_of_seen]. }
  assert (Hno : (forall w, In w (c_watch s') -> In w (c_watch s) \/ In (k, (q_no (w_req w), FLocated (w_at w))) (g_ans g)) ->
    ostep g k s s' (log_after D A (raft_call s o) s') [] (seen_in D E apply s o r) None).
  { intros H. constructor; auto; try (intros; contradiction); try discriminate. intros w Hw. destruct (H w Hw); auto. }
  assert (Hcase : (exists tx by_ x ok rnd b a l, o = CWrite tx by_ x ok rnd b /\ raft_call s o = Some (ORequest ok rnd x) /\
       rstep sz hmac (c_node s) (ORequest ok rnd x) = Ret (c_node s', a) /\ a_loc a = Some (l, RE_OK)) \/
     (forall w, In w (c_watch s') -> In w (c_watch s) \/ In (k, (q_no (w_req w), FLocated (w_at w))) (g_ans g))).
  { destruct (raft_call s o) as [ro|] eqn:Er.
    2:{ right. intros w Hw. destruct (vw_watch w Hw) as [H|[(tx & by_ & x & ok & rnd & b & a & _ & _ & H3 & _)|[H2 H3]]]; [auto|discriminate|]. subst o. auto. }
    destruct vw_raft as (a & H1 & H2).
    destruct o as [tx by_ x ok rnd b| | | | |]; try (right; intros w Hw; destruct (vw_watch w Hw) as [H|[(tx & by_ & x & ok' & rnd & b & a' & X & _)|[X H3]]]; [auto|discriminate|]; try discriminate; rewrite X in Hp; auto).
    cbn [Group.raft_call] in Er. destruct (_ && _)%bool in Er; [|discriminate]. injection Er as <-.
    destruct (a_loc a) as [[l er]|] eqn:Ea.
    - destruct er; try (right; intros w Hw; destruct (vw_watch w Hw) as [H|[(tx' & by_' & x' & ok' & rnd' & b' & a' & X & _ & _ & H4 & H5)|[X H3]]]; [auto|injection X as <- <- <- <- <- <-; congruence|discriminate]).
      left. exists tx, by_, x, ok, rnd, b, a, l. auto.
    - right; intros w Hw; destruct (vw_watch w Hw) as [H|[(tx' & by_' & x' & ok' & rnd' & b' & a' & X & _ & _ & H4 & H5)|[X H3]]]; [auto|injection X as <- <- <- <- <- <-; congruence|discriminate]. }
  destruct Hcase as [(tx & by_ & x & ok & rnd & b & a & l & -> & Hc & H1 & H2)|H]; [|exists None; auto].
  exists (Some (k, c_count s + 1, l)). constructor; auto.
  - intros ? ? ? [].
  - intros w Hw. destruct (vw_watch w Hw) as [H|[(tx' & by_' & x' & ok' & rnd' & b' & a' & X & H6 & _ & H4 & H5)|[X H3]]]; [auto| |discriminate].
    injection X as <- <- <- <- <- <-. right. left. rewrite H1 in H4. injection H4 as <-. rewrite H2 in H5. injection H5 as <-. rewrite H6. reflexivity.
  - intros to no l' X. injection X as <- <- <-. rewrite Hc. cbn [log_after].
    assert (Hrp : rpre (okf E Fm F) (net_of g) k (ORequest ok rnd x)).
    { cbn [rpre]. cbn [copre] in Hp. split; [assumption|]. right; right. exists k, (Req (c_count s + 1) tx by_). apply HF. apply seen_in_asked. exists tx, by_, ok, rnd, b. auto. }
    destruct (loc_fresh g k s A _ _ a l HI Hun HFr El Hrp H1 H2) as [H3 H4]. split; [assumption|]. split; [assumption|]. right. split; [reflexivity|]. rewrite vw_count. lia.
Qed.
Lemma serve_ostep g k s A ok rnd from no x j n' a : gall g -> unclashed (map strip (g_past g)) -> fresh L0 (net_of g) -> lookup k (g_now g) = Some (s, A) ->
  incl (g_seen g) F -> (forall k q x, saw g k (Asked q x) -> within Fm x) ->
  nth_error (g_fwd g) j = Some (from, (no, x)) -> rstep sz hmac (c_node s) (ORequest ok rnd x) = Ret (n', a) ->
  exists new, ostep g k s (set_node D n' s) (regrow A (n_log n')) [(from, (no, match a_loc a with Some (l, RE_OK) => FLocated l | Some (_, er) => FError (rerr_code er) | None => FError 0 end))] [] new.
Proof.
  intros HI Hun HFr El HF Hnm Hj Hr. apply nth_error_In in Hj. destruct (q_fwd _ _ _ _ _ _ _ _ _ _ g HI _ _ _ Hj) as (q & Hq & Hs).
  assert (Hp : rpre (okf E Fm F) (net_of g) k (ORequest ok rnd x)).
  { cbn [rpre]. split; [eapply Hnm; eassumption|]. right; right. exists from, q. apply HF. exact Hs. }
  exists match a_loc a with Some (l, RE_OK) => Some (from, no, l) | _ => None end. constructor; cbn [set_node CoreTx.c_watch].
  - intros to no' l [X|[]]. injection X as <- <- X. destruct (a_loc a) as [[l' er]|]; [|discriminate]. destruct er; try discriminate. congruence.
  - auto.
  - intros to no' l X. destruct (a_loc a) as [[l' er]|] eqn:Ea; [|discriminate]. destruct er; try discriminate. injection X as <- <- <-.
    destruct (loc_fresh g k s A _ _ a l' HI Hun HFr El Hp Hr Ea) as [H3 H4]. split; [assumption|]. split; [assumption|]. left. eauto.
  - right. exists (CRaft (ORequest ok rnd x)), quiet_res. cbn [CoreTx.cstep]. rewrite Hr. auto.
  - intros ? ? [|] ? X; discriminate.
  - intros ? ? [|] ? X; discriminate.
Qed.
Lemma change_ostep g k s A' ok rnd gr n' a : rstep sz hmac (c_node s) (ORequest ok rnd (IMember gr)) = Ret (n', a) -> ostep g k s (set_node D n' s) A' [] [] None.
Proof.
  intros Hr. constructor; cbn [set_node CoreTx.c_watch]; auto; try (intros; discriminate); try (intros; contradiction).
  - right. exists (CRaft (ORequest ok rnd (IMember gr))), quiet_res. cbn [CoreTx.cstep]. rewrite Hr. auto.
  - intros ? ? [|] ? X; discriminate.
  - intros ? ? [|] ? X; discriminate.
Qed.
Lemma refuse_ostep g k s A' from no code : ostep g k s s A' [(from, (no, FError code))] [] None.
Proof.
  constructor; auto; try (intros; discriminate).
  - intros to no' l [X|[]]. discriminate.
  - intros ? ? [|] ? X; discriminate.
  - intros ? ? [|] ? X; discriminate.
Qed.
Notation gstep := (gstep sz hmac D E apply respond min_voting).
Notation grun := (grun sz hmac D E apply respond min_voting).
Hypothesis HFm : forall k q x, In (k, Asked q x) F -> within Fm x.

(* what an event does *)
Inductive did (g : group) : group -> Prop :=
| DidNothing : did g g
| DidMove k s A s' A' msgs fwd ans sn tk new : lookup k (g_now g) = Some (s, A) -> stepped g k s A s' A' msgs fwd ans sn tk ->
    ostep g k s s' A' ans sn new -> did g (move k s' A' msgs fwd ans sn g)
| DidBack k s A : gwas g k s A ->
    did g (Grp D E (put k (s, A) (g_now g)) (g_past g) (g_soup g) (g_fwd g) (g_ans g) (g_seen g) (pins k (g_rolled g))).
Lemma run_core_did k o g : gall g -> unclashed (map strip (g_past g)) -> fresh L0 (net_of g) ->
  match o with CWrite _ _ _ _ _ _ => True | _ => copre D E Fm g k o end ->
  incl (g_seen (run_core sz hmac D E apply respond min_voting k o g)) F -> did g (run_core sz hmac D E apply respond min_voting k o g).
Proof.
  intros HI Hun HFr Hp HF. destruct (run_core_move sz hmac D E apply respond min_voting k o g) as [->|(s & A & s' & r & El & Ec & X)]; [constructor|]. rewrite X in *.
  assert (HF2 : forall x, In x (seen_in D E apply s o r) -> In (k, x) F).
  { intros x Hx. apply HF. cbn [Group.move Group.g_seen]. apply in_or_app. right. apply in_map_iff. eauto. }
  assert (Hcp : copre D E Fm g k o).
  { destruct o as [tx by_ x ok rnd b| | | | |]; auto. cbn [copre]. apply (HFm k (Req (c_count s + 1) tx by_)). apply HF2. apply seen_in_asked. exists tx, by_, ok, rnd, b. auto. }
  destruct (core_ostep g k s A o s' r HI Hun HFr El Hcp Ec HF2) as [new Ho]. eapply DidMove; [exact El| |exact Ho].
  eapply core_stepped; try eassumption.
Qed.
Lemma gstep_did g ev : gall g -> unclashed (map strip (g_past g)) -> change_in Fm ev -> fresh L0 (net_of g) -> incl (g_seen (gstep g ev)) F -> did g (gstep g ev).
Proof.
  intros HI Hun Hch HFr HF. destruct ev as [k o|k j ok1 ok2 rnd|k j attested ok rnd|k j|k attested ok rnd gr|k j]; cbn [Group.gstep] in *.
  - destruct o as [tx by_ x ok rnd b|no an|o|ok|c|c]; try (apply run_core_did; auto; exact I).
    + destruct an; try constructor. destruct (_ || _)%bool; [|constructor]. apply run_core_did; auto; exact I.
    + destruct o; try constructor; apply run_core_did; auto; exact I.
  - destruct (nth_error (g_soup g) j) as [[from [to m]]|] eqn:Ej; [|constructor].
    destruct (match to with Some p => beq p k | None => _ end) eqn:Ed; [|constructor]. apply run_core_did; auto. cbn [copre]. exists to.
    split; [eapply nth_error_In; eassumption|]. intros p ->. now apply beq_eq.
  - destruct (nth_error (g_fwd g) j) as [[from [no x]]|] eqn:Ej; [|constructor]. unfold run_serve in *.
    destruct (lookup k (g_now g)) as [[s A]|] eqn:El; [|constructor]. destruct (serve D min_voting attested ok rnd x s) as [code|o] eqn:Es.
    2:{ assert (o = ORequest ok rnd x) as -> by exact (serve_is _ _ _ _ _ _ _ _ Es).
      destruct (rstep sz hmac (c_node s) (ORequest ok rnd x)) as [[n' a]|] eqn:Er; [|constructor]. cbv zeta in *.
      assert (HFg : incl (g_seen g) F). { intros y Hy. apply HF. cbn [Group.move Group.g_seen]. apply in_or_app. auto. }
      assert (Hm : forall k q x, saw g k (Asked q x) -> within Fm x) by (intros k1 q1 x1 H1; apply (HFm k1 q1), HFg, H1).
      destruct (serve_ostep g k s A ok rnd from no x j n' a HI Hun HFr El HFg Hm Ej Er) as [new Ho].
      eapply DidMove; [exact El| |exact Ho]. eapply serve_stepped; eassumption. }
    eapply DidMove; [exact El|eapply refuse_stepped; eassumption|apply refuse_ostep].
  - destruct (nth_error (g_ans g) j) as [[to [no a]]|] eqn:Ej; [|constructor]. destruct (beq to k) eqn:Eb; [|constructor]. apply beq_eq in Eb. subst to.
    apply run_core_did; auto. cbn [copre]. destruct a; auto. eapply nth_error_In; eassumption.
  - unfold run_change in *. destruct (lookup k (g_now g)) as [[s A]|] eqn:El; [|constructor]. destruct (_ && _)%bool; [|constructor].
    destruct (rstep _ _ _ _) as [[n' a]|] eqn:Er; [|constructor]. eapply DidMove; [exact El|eapply change_stepped; eassumption|eapply change_ostep; eassumption].
  - destruct (nth_error (g_past g) j) as [[k' x]|] eqn:Ej; [|constructor]. destruct (beq k' k) eqn:Eb; [|constructor]. apply beq_eq in Eb. subst k'.
    apply nth_error_In in Ej. destruct x as [s A]. now constructor.
Qed.
Lemma gstep_rolled g ev : incl (g_rolled g) (g_rolled (gstep g ev)) /\ psize (g_rolled g) <= psize (g_rolled (gstep g ev)).
Proof.
  clear HFM Hwf Hov HFm sm M L0 db0 Fm F.
  assert (Hp : forall p l, (length l <= length (pins p l))%nat).
  { intros p l. induction l as [|q l IH]; cbn [pins]; [cbn; lia|]. destruct (bcmp p q); cbn [length]; lia. }
  assert (Hi : incl (g_rolled g) (g_rolled g) /\ psize (g_rolled g) <= psize (g_rolled g)) by (split; [apply incl_refl|lia]).
  assert (Hc : forall k o, incl (g_rolled g) (g_rolled (run_core sz hmac D E apply respond min_voting k o g)) /\ psize (g_rolled g) <= psize (g_rolled (run_core sz hmac D E apply respond min_voting k o g))).
  { intros k o. destruct (run_core_move sz hmac D E apply respond min_voting k o g) as [->|(s & A & s' & r & _ & _ & ->)]; [auto|exact Hi]. }
  destruct ev as [k o|k j ok1 ok2 rnd|k j attested ok rnd|k j|k attested ok rnd gr|k j]; cbn [Group.gstep].
  - destruct o as [| no an | o | | |]; auto; [destruct an; auto; destruct (_ || _)%bool|destruct o]; auto.
  - destruct (nth_error _ _) as [[from [to m]]|]; auto. destruct (match to with Some p => _ | None => _ end); auto.
  - destruct (nth_error _ _) as [[from [no x]]|]; auto. unfold run_serve. destruct (lookup k (g_now g)) as [[s A]|]; auto.
    destruct (serve _ _ _ _ _ _ _); auto. destruct (rstep _ _ _ _) as [[n' a]|]; auto.
  - destruct (nth_error _ _) as [[to [no a]]|]; auto. destruct (beq to k); auto.
  - unfold run_change. destruct (lookup k (g_now g)) as [[s A]|]; auto. destruct (_ && _)%bool; auto. destruct (rstep _ _ _ _) as [[n' a]|]; auto.
  - destruct (nth_error _ _) as [[k' x]|]; auto. destruct (beq k' k); auto. cbn [Group.g_rolled]. split.
    + intros y Hy. apply pins_In. now right.
    + unfold psize. specialize (Hp k (g_rolled g)). lia.
Qed.
Lemma grun_rolled evs : forall g, incl (g_rolled g) (g_rolled (grun g evs)) /\ psize (g_rolled g) <= psize (g_rolled (grun g evs)).
Proof.
  clear HFM Hwf Hov HFm sm M L0 db0 Fm F.
  induction evs as [|ev evs IH]; intros g; cbn [Group.grun fold_left]; [split; [apply incl_refl|lia]|].
  destruct (gstep_rolled g ev) as [H1 H2], (IH (gstep g ev)) as [H3 H4]. split; [eapply incl_tran; eassumption|]. unfold Group.grun in H4. lia.
Qed.
Lemma gstep_ordered g ev : gall g -> change_in Fm ev -> gno_clash (gstep g ev) -> psize (g_rolled (gstep g ev)) <= sm -> leaders_kept (gstep g ev) ->
  incl (g_seen (gstep g ev)) F -> ordered g ->
  ordered (gstep g ev) /\ (forall k no l, handed (gstep g ev) k no l -> handed g k no l \/ fresh_loc g l).
Proof.
  intros HI Hce Hnc Hro Hlk HF HO.
  assert (Hun : unclashed (map strip (g_past g))).
  { intros k1 n1 A1 k2 n2 A2 H1 H2. apply in_strip in H1 as [s1 [_ H1]]. apply in_strip in H2 as [s2 [_ H2]].
    destruct (gstep_grows sz hmac D E apply respond min_voting g ev) as [G _]. apply (Hnc k1 s1 A1 k2 s2 A2); apply G; assumption. }
  pose proof (gstep_inv sz hmac D E apply respond min_voting M sm L0 db0 Fm HFM Hwf F HFm g ev HI Hun Hce HF) as HI'.
  pose proof (gstep_did g ev HI Hun Hce (o_fresh g HO) HF) as Hd. destruct (gstep_rolled g ev) as [_ Hr].
  destruct Hd as [|k s A s' A' msgs fwd ans sn tk new El Hst Hos|k s A Hw]; [auto| |].
  - pose proof (q_now _ _ _ _ _ _ _ _ _ _ g HI k _ El) as Hin. split.
    + eapply move_ordered; eauto.
    + intros k1 no l H. destruct (handed_new _ _ _ _ _ _ _ _ _ _ _ _ _ _ Hin Hos H) as [H1|H1]; [auto|]. right. apply (os_new _ _ _ _ _ _ _ _ Hos _ _ _ H1).
  - split; [|intros k1 no l H; left; exact H].
    assert (Hk : forall k1, ~ In k1 (pins k (g_rolled g)) -> ~ In k1 (g_rolled g) /\ k1 <> k) by (intros k1 H; rewrite pins_In in H; tauto).
    assert (Hl : forall k1 t B, k1 <> k -> lookup k1 (put k (s, A) (g_now g)) = Some (t, B) -> lookup k1 (g_now g) = Some (t, B)).
    { intros k1 t B Hne H. now rewrite lookup_put_other in H. }
    constructor; cbn [Group.g_now Group.g_past Group.g_soup Group.g_fwd Group.g_ans Group.g_seen Group.g_rolled].
    + unfold net_of; cbn [Group.g_now Group.g_past Group.g_soup Group.g_rolled]. pose proof (strip_put k s A (g_now g)) as X. unfold gstate in X |- *. rewrite X.
      apply fresh_back; [exact (o_fresh g HO)|now apply strip_in|]. intros n B H. apply in_strip in H as [t [<- H]].
      apply (Hlk k t B); [cbn [Group.g_rolled]; apply pins_In; now left|exact H].
    + exact (o_some g HO).
    + exact (o_one g HO).
    + intros k1 t B no l H1 H2 H3. destruct (Hk k1 H1) as [H4 H5]. exact (o_low g HO k1 t B no l H4 (Hl _ _ _ H5 H2) H3).
    + intros k1 t B H1 H2. destruct (Hk k1 H1) as [H4 H5]. exact (o_core g HO k1 t B H4 (Hl _ _ _ H5 H2)).
    + intros k1 q a pre post H1 H2. destruct (o_said g HO k1 q a pre post H1 H2) as (i & e & eff & l & H3 & H4 & H5 & H6 & H7 & H8 & H9).
      exists i, e, eff, l. repeat (split; [assumption|]). intros Hn. apply Hk in Hn. apply H9, Hn.
Qed.
Lemma kept_back g ev : leaders_kept (gstep g ev) -> leaders_kept g.
Proof.
  intros H k s A H1 H2. destruct (gstep_rolled g ev) as [G1 _]. destruct (gstep_grows sz hmac D E apply respond min_voting g ev) as [G2 _].
  apply (H k s A); [apply G1; exact H1|apply G2; exact H2].
Qed.
Lemma kept_run evs : forall g, leaders_kept (grun g evs) -> leaders_kept g.
Proof. induction evs as [|ev evs IH]; intros g H; cbn [Group.grun fold_left] in H; [assumption|]. eapply kept_back. eapply IH. exact H. Qed.
Lemma fresh_loc_back g evs l : fresh_loc (grun g evs) l -> fresh_loc g l.
Proof.
  intros [H1 H2]. split; [assumption|]. intros k s A e H3 H4. destruct (grun_grows sz hmac D E apply respond min_voting evs g) as [G _].
  apply (H2 k s A e); [apply G; exact H3|assumption].
Qed.
Lemma clash_back g evs : gno_clash (grun g evs) -> gno_clash g.
Proof.
  intros H k1 s1 A1 k2 s2 A2 H1 H2. destruct (grun_grows sz hmac D E apply respond min_voting evs g) as [G _]. apply (H k1 s1 A1 k2 s2 A2); apply G; assumption.
Qed.
Lemma grun_ordered evs : forall g, gall g -> Forall (change_in Fm) evs -> gno_clash (grun g evs) -> psize (g_rolled (grun g evs)) <= sm -> leaders_kept (grun g evs) ->
  incl (g_seen (grun g evs)) F -> ordered g ->
  ordered (grun g evs) /\ (forall k no l, handed (grun g evs) k no l -> handed g k no l \/ fresh_loc g l).
Proof.
  induction evs as [|ev evs IH]; intros g HI Hce Hnc Hro Hlk HF HO; [split; [exact HO|intros k no l H; left; exact H]|]. inversion Hce as [|? ? Hc1 Hc2]; subst.
  change (grun g (ev :: evs)) with (grun (gstep g ev) evs) in *.
  destruct (grun_rolled evs (gstep g ev)) as [_ R]. destruct (grun_grows sz hmac D E apply respond min_voting evs (gstep g ev)) as [_ G].
  pose proof (clash_back _ _ Hnc) as Hnc1.
  assert (HF1 : incl (g_seen (gstep g ev)) F) by (eapply incl_tran; eassumption).
  destruct (gstep_ordered g ev HI Hc1 Hnc1 ltac:(lia) (kept_run _ _ Hlk) HF1 HO) as [HO1 HN].
  assert (HI1 : gall (gstep g ev)).
  { apply (gstep_inv sz hmac D E apply respond min_voting M sm L0 db0 Fm HFM Hwf F HFm g ev HI); [|exact Hc1|exact HF1].
    intros k1 n1 A1 k2 n2 A2 H1 H2. apply in_strip in H1 as [s1 [_ H1]]. apply in_strip in H2 as [s2 [_ H2]].
    destruct (gstep_grows sz hmac D E apply respond min_voting g ev) as [G2 _]. apply (Hnc1 k1 s1 A1 k2 s2 A2); apply G2; assumption. }
  destruct (IH (gstep g ev) HI1 Hc2 Hnc Hro Hlk HF HO1) as [HO2 HN2]. split; [assumption|].
  intros k no l H. destruct (HN2 k no l H) as [H1|H1]; [exact (HN k no l H1)|]. right. apply (fresh_loc_back g [ev]). exact H1.
Qed.
(* the step in which a request is made *)
Lemma asked_when evs : forall g, gall g -> Forall (change_in Fm) evs -> gno_clash (grun g evs) -> psize (g_rolled (grun g evs)) <= sm -> leaders_kept (grun g evs) ->
  incl (g_seen (grun g evs)) F -> ordered g -> g_seen g = [] ->
  forall pre k q x post, g_seen (grun g evs) = pre ++ (k, Asked q x) :: post ->
  exists evs1 evs2 s A, evs = evs1 ++ evs2 /\ g_seen (grun g evs1) = pre /\ lookup k (g_now (grun g evs1)) = Some (s, A) /\ q_no q = c_count s + 1.
Proof.
  induction evs as [|ev evs IH] using rev_ind; intros g HI Hce Hnc Hro Hlk HF HO Hs0 pre k q x post H.
  { cbn in H. rewrite Hs0 in H. destruct pre; discriminate. }
  apply Forall_app in Hce as [Hc1 Hc2]. inversion Hc2 as [|? ? Hc3 _]; subst.
  assert (Hrun : grun g (evs ++ [ev]) = gstep (grun g evs) ev) by (unfold Group.grun; now rewrite fold_left_app).
  rewrite Hrun in *. destruct (gstep_rolled (grun g evs) ev) as [_ R]. destruct (gstep_grows sz hmac D E apply respond min_voting (grun g evs) ev) as [_ G].
  assert (Hnc1 : gno_clash (grun g evs)) by (apply (clash_back _ [ev]); exact Hnc).
  assert (HF1 : incl (g_seen (grun g evs)) F) by (eapply incl_tran; eassumption).
  pose proof (kept_back _ _ Hlk) as Hlk1.
  assert (HI1 : gall (grun g evs)) by (apply (grun_inv sz hmac D E apply respond min_voting M sm L0 db0 Fm HFM Hwf F HFm); assumption).
  destruct (grun_ordered evs g HI Hc1 Hnc1 ltac:(lia) Hlk1 HF1 HO) as [HO1 _].
  assert (Hun : unclashed (map strip (g_past (grun g evs)))).
  { intros k1 n1 A1 k2 n2 A2 H1 H2. apply in_strip in H1 as [s1 [_ H1]]. apply in_strip in H2 as [s2 [_ H2]]. exact (Hnc1 k1 s1 A1 k2 s2 A2 H1 H2). }
  assert (Hold : forall c, g_seen (grun g evs) = pre ++ (k, Asked q x) :: c -> exists evs1 evs2 s A, evs ++ [ev] = evs1 ++ evs2 /\ g_seen (grun g evs1) = pre /\
     lookup k (g_now (grun g evs1)) = Some (s, A) /\ q_no q = c_count s + 1).
  { intros c Hc. destruct (IH g HI Hc1 Hnc1 ltac:(lia) Hlk1 HF1 HO Hs0 pre k q x c Hc) as (e1 & e2 & s & A & -> & H2). exists e1, (e2 ++ [ev]), s, A.
    split; [now rewrite app_assoc|exact H2]. }
  pose proof (gstep_did (grun g evs) ev HI1 Hun Hc3 (o_fresh _ HO1) HF) as Hd.
  destruct Hd as [|k0 s A s' A' msgs fwd ans sn tk new El Hst Hos|k0 s A Hw].
  - eapply Hold; exact H.
  - cbn [Group.move Group.g_seen] in H. apply app_split in H as [(c & H1 & _)|(c & -> & H1)]; [eapply Hold; exact H1|].
    apply map_split in H1 as (p & y & z & H1 & -> & H2 & ->). injection H2 as -> <-.
    destruct (os_head _ _ _ _ _ _ _ _ Hos q x p z H1) as [-> H2]. exists evs, [ev], s, A. cbn [map]. rewrite app_nil_r. auto.
  - eapply Hold; exact H.
Qed.
Lemma seat_reached x gid n : chained hmac L0 -> (s_drop x = 0%nat \/ (s_drop x < length L0)%nat) -> seat_node sz hmac gid M sm L0 x = Ret n -> reached sz hmac n.
Proof.
  intros Hch Hd En. exists n, (regrow L0 (n_log n)), [], []. split; [|reflexivity]. unfold seat_node in En.
  do 9 eexists. exists L0. split; [exact (Hwf M HFM)|]. split; [exact Hch|]. split; [|split; [now left|split; [exact En|reflexivity]]].
  exists (s_drop x). cbn. auto.
Qed.
Lemma gstart_ordered gid xs g : chained hmac L0 -> NoDup (map s_id xs) -> incl (m_voting M) (map s_id xs) ->
  Forall (fun x => s_drop x = 0%nat \/ (s_drop x < length L0)%nat) xs ->
  gstart sz hmac D E gid M sm L0 db0 xs = Ret g -> ordered g /\ g_seen g = [].
Proof.
  intros Hch Hnd Hall Hd Eg. pose proof (gstart_inv sz hmac D E apply respond M sm L0 db0 Fm HFM Hwf F gid xs g Hch Hnd Hall Hd Eg) as HI.
  unfold gstart in Eg. apply bind_inv in Eg as [p [E1 Eg]]. injection Eg as <-. split; [|reflexivity].
  set (f := fun kv : bytes * rstate => (fst kv, (new_core D (fst (snd kv)) db0 true, snd (snd kv)))) in *.
  assert (Hsf : forall m : list (bytes * rstate), map strip (map f m) = m).
  { induction m as [|[k [n A]] m IH]; [reflexivity|]. cbn [map]. rewrite IH. reflexivity. }
  assert (Hsp : map strip (fold_right (fun kv m => put (fst kv) (snd kv) m) [] (map f p)) = fold_right (fun kv m => put (fst kv) (snd kv) m) [] p).
  { clear. induction p as [|[k [n A]] p IH]; [reflexivity|]. cbn [map]. change (f (k, (n, A))) with (k, (new_core D n db0 true, A)). cbn [fold_right fst snd]. rewrite strip_put. rewrite IH. reflexivity. }
  assert (Hw : forall k s A w, In (k, (s, A)) (map f p) -> ~ In w (c_watch s)).
  { intros k s A w Hin. apply in_map_iff in Hin as [[k' [n A']] [X Hin]]. unfold f in X; cbn [fst snd] in X. injection X as <- <- <-. intros []. }
  assert (Hh : forall k no l, ~ handed (Grp D E (fold_right (fun kv m => put (fst kv) (snd kv) m) [] (map f p)) (map f p) [] [] [] [] []) k no l).
  { intros k no l [[]|(s & A & w & H1 & H2 & _)]. exact (Hw _ _ _ _ H1 H2). }
  constructor; cbn [Group.g_now Group.g_past Group.g_soup Group.g_fwd Group.g_ans Group.g_seen Group.g_rolled].
  - pose proof (q_raft _ _ _ _ _ _ _ _ _ _ _ HI) as HG. unfold net_of in HG |- *; cbn [Group.g_now Group.g_past Group.g_soup Group.g_rolled] in HG |- *.
    match type of HG with ginv _ _ _ _ _ ?n =>
      assert (Hn : n = Net (fold_right (fun kv m => put (fst kv) (snd kv) m) [] p) p [] [] []) by (f_equal; [exact Hsp|exact (Hsf p)]) end.
    match goal with |- fresh L0 ?n =>
      assert (Hn2 : n = Net (fold_right (fun kv m => put (fst kv) (snd kv) m) [] p) p [] [] []) by (f_equal; [exact Hsp|exact (Hsf p)]) end.
    rewrite Hn in HG. rewrite Hn2.
    apply (start_fresh sz hmac M sm L0 Fm HFM Hwf Hov (okf E Fm F) gid xs _ (okf_mem E Fm F)); auto. unfold start. now rewrite E1.
  - intros k no l H. destruct (Hh k no l H).
  - intros k no l k2 no2 l2 H. destruct (Hh k no l H).
  - intros k s A no l _ _ H. destruct (Hh k no l H).
  - intros k s A _ Hl. pose proof (q_now _ _ _ _ _ _ _ _ _ _ _ HI k _ Hl) as Hin. cbn [Group.g_past] in Hin. exists [], []. split; [|reflexivity].
    apply in_map_iff in Hin as [[k' [n A']] [X Hin]]. unfold f in X; cbn [fst snd] in X. injection X as <- <- <-.
    destruct (seated_in sz hmac M sm L0 gid xs p E1) as [_ Hs]. destruct (Hs _ _ _ Hin) as (x & Hx & -> & En & ->).
    rewrite Forall_forall in Hd. apply inv_start. exists n, db0, true. split; [|reflexivity]. eapply seat_reached; eauto.
  - intros k q a [|] post H; discriminate.
Qed.
End Order.

(* --- conclusions ------------------------------------------------------------------- *)
Lemma said_by_split {E} k q a (pre post : list (bytes * seen E)) : said_by k (pre ++ (k, Said E q a) :: post) = said_by k pre ++ (q, a) :: said_by k post.
Proof. rewrite said_by_app. f_equal. unfold said_by at 1. cbn [flat_map fst snd]. now rewrite beq_same. Qed.
Lemma said_once {E} (l : list (bytes * seen E)) k q1 a1 pre1 post1 q2 a2 pre2 post2 : NoDup (map (fun a => q_no (fst a)) (said_by k l)) ->
  l = pre1 ++ (k, Said E q1 a1) :: post1 -> l = pre2 ++ (k, Said E q2 a2) :: post2 -> q_no q1 = q_no q2 -> pre1 = pre2 /\ a1 = a2.
Proof.
  intros Hnd E1 E2 Hq. subst l. revert pre2 E2 Hnd. induction pre1 as [|x pre1 IH]; intros pre2 E2 Hnd.
  - destruct pre2 as [|y pre2]; cbn [app] in E2; [injection E2 as _ <- _; auto|]. injection E2 as <- E2. exfalso.
    pose proof (said_by_split k q1 a1 [] post1) as X. cbn [app] in X, Hnd. rewrite X, E2, said_by_split in Hnd. cbn [map app said_by flat_map fst] in Hnd.
    inversion Hnd as [|? ? Hn _]. apply Hn. rewrite map_app. apply in_or_app. right. left. cbn. congruence.
  - destruct pre2 as [|y pre2]; cbn [app] in E2.
    + injection E2 as -> E2. exfalso. pose proof (said_by_split k q2 a2 [] (pre1 ++ (k, Said E q1 a1) :: post1)) as X. cbn [app] in X, Hnd.
      rewrite X, said_by_split in Hnd. cbn [map app said_by flat_map fst] in Hnd. inversion Hnd as [|? ? Hn _]. apply Hn. rewrite map_app. apply in_or_app. right. left. cbn. congruence.
    + injection E2 as <- E2. destruct (IH pre2 E2) as [-> ->]; [|auto].
      change ((x :: pre1) ++ (k, Said E q1 a1) :: post1) with ([x] ++ (pre1 ++ (k, Said E q1 a1) :: post1)) in Hnd. rewrite said_by_app, map_app in Hnd. now apply nd_r in Hnd.
Qed.
Section End_.
Variable sz : sizes.
Variable hmac : bytes -> bytes -> bytes.
Context {D E : Type}.
Variable apply : D -> bytes -> D * option E.
Variable respond : N -> E -> option bytes.
Variable min_voting : N.
Variable M : members.
Variable sm : N.
Variable L0 : list entry.
Variable db0 : D.
Notation grun := (grun sz hmac D E apply respond min_voting).
Notation answered_at := (@answered_at D E).

Lemma reached_ordered evs g : group_reached sz hmac apply respond min_voting M sm L0 db0 evs g -> gchanges_overlap M sm evs -> gno_clash g ->
  psize (g_rolled D E g) <= sm -> leaders_kept g ->
  exists Fm, overlap_from M sm Fm /\ gall hmac D E apply respond sm L0 db0 Fm (g_seen D E g) g /\ ordered sz hmac D E respond L0 g /\
  forall pre k q x post, g_seen D E g = pre ++ (k, Asked E q x) :: post ->
    exists g1 s A, gall hmac D E apply respond sm L0 db0 Fm (g_seen D E g) g1 /\ incl (g_rolled D E g1) (g_rolled D E g) /\ incl (g_past D E g1) (g_past D E g) /\ g_seen D E g1 = pre /\ ordered sz hmac D E respond L0 g1 /\
      lookup k (g_now D E g1) = Some (s, A) /\ q_no q = c_count D s + 1 /\
      (forall k1 no l, handed D E g k1 no l -> handed D E g1 k1 no l \/ fresh_loc D E L0 g1 l).
Proof.
  intros (gid & xs & g0 & (H1 & H2 & H3 & H4 & H5 & H6 & H7) & Eg & ->) (F0 & HF0 & Hov0 & Hask) Hnc Hro Hlk.
  destruct (changes_parts M sm F0 evs H1 HF0 Hov0 Hask) as (HM & Hw & Ho & Hce & Hwr). exists (wfF F0).
  split; [repeat (split; [assumption|]); assumption|].
  assert (HFm : forall k q x, In (k, Asked E q x) (g_seen D E (grun g0 evs)) -> within (wfF F0) x) by (eapply asked_in; eassumption).
  pose proof (gstart_inv sz hmac D E apply respond M sm L0 db0 (wfF F0) HM Hw (g_seen D E (grun g0 evs)) gid xs g0 H4 H5 H6 H7 Eg) as HI0.
  split; [apply (grun_inv sz hmac D E apply respond min_voting M sm L0 db0 (wfF F0) HM Hw _ HFm); auto using incl_refl|].
  destruct (gstart_ordered sz hmac D E apply respond M sm L0 db0 (wfF F0) HM Hw Ho (g_seen D E (grun g0 evs)) gid xs g0 H4 H5 H6 H7 Eg) as [HO0 Hs0].
  pose proof (grun_ordered sz hmac D E apply respond min_voting M sm L0 db0 (wfF F0) HM Hw Ho (g_seen D E (grun g0 evs)) HFm) as Hrun.
  split; [apply Hrun; auto using incl_refl|].
  intros pre k q x post Hs.
  destruct (asked_when sz hmac D E apply respond min_voting M sm L0 db0 (wfF F0) HM Hw Ho (g_seen D E (grun g0 evs)) HFm evs g0 HI0 Hce Hnc Hro Hlk (incl_refl _) HO0 Hs0 pre k q x post Hs)
    as (e1 & e2 & s & A & -> & E1 & E2 & E3).
  assert (Hsplit : grun g0 (e1 ++ e2) = grun (grun g0 e1) e2) by (unfold Group.grun; apply fold_left_app).
  set (F := g_seen D E (grun g0 (e1 ++ e2))) in *.
  assert (Hinc : incl (g_seen D E (grun g0 e1)) F) by (unfold F; rewrite Hsplit; apply grun_grows).
  rewrite Hsplit in *. destruct (grun_rolled sz hmac D E apply respond min_voting e2 (grun g0 e1)) as [R1 R2].
  pose proof (clash_back sz hmac D E apply respond min_voting _ _ Hnc) as Hnc1. pose proof (kept_run sz hmac D E apply respond min_voting _ _ Hlk) as Hlk1.
  apply Forall_app in Hce as [Hc1 Hc2].
  assert (HI1 : gall hmac D E apply respond sm L0 db0 (wfF F0) F (grun g0 e1)) by (apply (grun_inv sz hmac D E apply respond min_voting M sm L0 db0 (wfF F0) HM Hw F HFm); auto).
  destruct (Hrun e1 g0 HI0 Hc1 Hnc1 ltac:(lia) Hlk1 Hinc HO0) as [HO1 _].
  destruct (Hrun e2 (grun g0 e1) HI1 Hc2 Hnc Hro Hlk ltac:(unfold F; rewrite Hsplit; apply incl_refl) HO1) as [_ HN].
  exists (grun g0 e1), s, A. repeat (split; [first [assumption|apply grun_grows]|]). assumption.
Qed.
Lemma answers_ordered evs g : group_reached sz hmac apply respond min_voting M sm L0 db0 evs g -> gchanges_overlap M sm evs -> gno_clash g ->
  psize (g_rolled D E g) <= sm -> leaders_kept g ->
  (forall k q a, saw g k (Said E q a) -> success a -> exists i e eff, answered_at g k q a i /\ saw g k (Took E i e eff) /\ fits_effect respond q a eff /\
     (~ In k (g_rolled D E g) -> saw g k (Asked E q (e_inner e)))) /\
  (forall k1 q1 a1 k2 q2 a2 i, success a1 -> success a2 -> answered_at g k1 q1 a1 i -> answered_at g k2 q2 a2 i -> k1 = k2 /\ q_no q1 = q_no q2 /\ (~ In k1 (g_rolled D E g) -> q1 = q2)) /\
  (forall k q a1 i1 a2 i2, ~ In k (g_rolled D E g) -> answered_at g k q a1 i1 -> answered_at g k q a2 i2 -> i1 = i2 /\ a1 = a2) /\
  (forall i1 k q a2 i2, ~ In k (g_rolled D E g) -> ran_before g i1 k q -> success a2 -> answered_at g k q a2 i2 -> i1 < i2).
Proof.
  intros Hg Hf Hnc Hro Hlk. destruct (reached_ordered evs g Hg Hf Hnc Hro Hlk) as (Fm & (HM & Hwf & Ho) & HI & HO & Hw).
  pose proof (q_raft _ _ _ _ _ _ _ _ _ _ _ HI) as HG.
  assert (Hag : forall k1 i e1 eff1 k2 e2 eff2, saw g k1 (Took E i e1 eff1) -> saw g k2 (Took E i e2 eff2) -> e1 = e2).
  { intros k1 i e1 eff1 k2 e2 eff2 H1 H2. destruct (q_took _ _ _ _ _ _ _ _ _ _ _ HI _ _ _ _ H1) as (s1 & A1 & X1 & X2 & X3 & X4 & _).
    destruct (q_took _ _ _ _ _ _ _ _ _ _ _ HI _ _ _ _ H2) as (s2 & A2 & Y1 & Y2 & Y3 & Y4 & _).
    apply (agree_entry hmac M sm L0 Fm HM Hwf Ho _ (okf_mem E Fm _) (net_of g) k1 (c_node D s1) A1 k2 (c_node D s2) A2 i e1 e2 HG Hro); auto; apply strip_in; assumption. }
  assert (Hpl : forall k q a i, answered_at g k q a i -> success a -> exists e eff l, saw g k (Took E i e eff) /\ handed D E g k (q_no q) l /\ lc_idx l = i /\ lc_term l = e_term e /\
     fits_effect respond q a eff /\ (~ In k (g_rolled D E g) -> saw g k (Asked E q (e_inner e)))).
  { intros k q a i (pre & post & H1 & H2) Hs. destruct (o_said _ _ _ _ _ _ _ HO k q a pre post H1 Hs) as (i' & e & eff & l & H3 & H4 & H5 & H6 & H7 & H8 & H9).
    rewrite H2 in H3. injection H3 as <-. exists e, eff, l. auto 10. }
  split; [|split; [|split]].
  - intros k q a H Hs. apply in_split in H as (pre & post & H). destruct (o_said _ _ _ _ _ _ _ HO k q a pre post H Hs) as (i & e & eff & l & H3 & H4 & H5 & H6 & H7 & H8 & H9).
    exists i, e, eff. split; [exists pre, post; auto|auto].
  - intros k1 q1 a1 k2 q2 a2 i S1 S2 H1 H2. destruct (Hpl _ _ _ _ H1 S1) as (e1 & eff1 & l1 & X1 & X2 & X3 & X4 & X5 & X6).
    destruct (Hpl _ _ _ _ H2 S2) as (e2 & eff2 & l2 & Y1 & Y2 & Y3 & Y4 & Y5 & Y6). pose proof (Hag _ _ _ _ _ _ _ X1 Y1) as <-.
    destruct (o_one _ _ _ _ _ _ _ HO _ _ _ _ _ _ X2 Y2 ltac:(congruence) ltac:(congruence)) as [<- Hq]. split; [reflexivity|]. split; [assumption|].
    intros Hn. apply (q_uniq _ _ _ _ _ _ _ _ _ _ _ HI k1 _ _ _ _ Hn (X6 Hn) (Y6 Hn) Hq).
  - intros k q a1 i1 a2 i2 Hn (pre1 & post1 & H1 & H2) (pre2 & post2 & H3 & H4).
    assert (Hex : exists s A, lookup k (g_now D E g) = Some (s, A)).
    { destruct (q_raft _ _ _ _ _ _ _ _ _ _ _ HI) as [_ _ _ _ Hch]. 
      assert (Hwas : exists s A, gwas g k s A).
      { destruct (last_ran k pre1) eqn:X; [|discriminate].
        assert (Hin : exists i e eff, saw g k (Took E i e eff)).
        { clear - X H1. unfold saw. rewrite H1. clear H1. revert n X. induction pre1 as [|[j y] p IH] using rev_ind; intros n X; [discriminate|].
          rewrite last_ran_app in X. unfold last_ran at 1 in X. cbn [fold_left fst snd] in X. destruct y as [q0 x0|i e eff|q0 a0].
          - destruct (IH n X) as (i & e & eff & H). exists i, e, eff. rewrite in_app_iff in *. rewrite in_app_iff. tauto.
          - destruct (beq j k) eqn:B; [apply beq_eq in B; subst j; exists i, e, eff; rewrite !in_app_iff; left; right; now left|].
            destruct (IH n X) as (i' & e' & eff' & H). exists i', e', eff'. rewrite in_app_iff in *. rewrite in_app_iff. tauto.
          - destruct (IH n X) as (i & e & eff & H). exists i, e, eff. rewrite in_app_iff in *. rewrite in_app_iff. tauto. }
        destruct Hin as (i & e & eff & H). destruct (q_took _ _ _ _ _ _ _ _ _ _ _ HI _ _ _ _ H) as (s & A & H5 & _). eauto. }
      destruct Hwas as (s & A & Hwas). destruct (Hch k (c_node D s) A Hn (strip_in _ _ _ _ Hwas)) as ([n B] & Hl & _).
      unfold net_of in Hl; cbn [w_now] in Hl. rewrite strip_lookup in Hl. destruct (lookup k (g_now D E g)) as [[t C]|]; [eauto|discriminate]. }
    destruct Hex as (s & A & Hl). destruct (o_core _ _ _ _ _ _ _ HO k s A Hn Hl) as (h & rs & V & Hsb).
    assert (Hnd : NoDup (map (fun a => q_no (fst a)) (said_by k (g_seen D E g)))).
    { rewrite Hsb. pose proof (v_perm _ _ _ _ _ _ V) as Hp. apply Permutation_sym in Hp. pose proof (Permutation_NoDup Hp (numbers_nodup _)) as X. apply nd_l in X. exact X. }
    destruct (said_once _ k q a1 pre1 post1 q a2 pre2 post2 Hnd H1 H3 eq_refl) as [-> ->]. split; [congruence|reflexivity].
  - intros i1 k q a2 i2 Hn (pre & k1 & e1 & eff1 & mid & x & post & Hs) S2 H2.
    destruct (Hw (pre ++ (k1, Took E i1 e1 eff1) :: mid) k q x post) as (g1 & s & A & HI1 & Hr1 & Hp1 & Hs1 & HO1 & Hl1 & Hq & HN); [rewrite <- app_assoc; exact Hs|].
    destruct (Hpl _ _ _ _ H2 S2) as (e2 & eff2 & l2 & Y1 & Y2 & Y3 & Y4 & Y5 & Y6).
    destruct (HN _ _ _ Y2) as [HH|[HH1 HH2]].
    + exfalso. pose proof (o_low _ _ _ _ _ _ _ HO1 k s A (q_no q) l2 (fun X => Hn (Hr1 _ X)) Hl1 HH). lia.
    + destruct (N.lt_ge_cases i1 i2) as [|Hle]; [assumption|]. exfalso.
      assert (Hsaw : saw g1 k1 (Took E i1 e1 eff1)) by (unfold saw; rewrite Hs1; apply in_split_mid).
      destruct (q_took _ _ _ _ _ _ _ _ _ _ _ HI1 _ _ _ _ Hsaw) as (s1 & A1 & X1 & X2 & X3 & X4 & _).
      destruct (q_took _ _ _ _ _ _ _ _ _ _ _ HI _ _ _ _ Y1) as (s2 & A2 & Z1 & Z2 & Z3 & Z4 & _).
      pose proof (nth_entry_len _ _ _ X4) as Hlen.
      destruct (nth_entry A1 i2) as [e'|] eqn:Ee.
      2:{ unfold nth_entry in Ee. destruct (i2 =? 0) eqn:E0; [lia|]. apply nth_error_None in Ee. unfold llen in *. lia. }
      assert (e' = e2).
      { apply (agree_entry hmac M sm L0 Fm HM Hwf Ho _ (okf_mem E Fm _) (net_of g) k1 (c_node D s1) A1 k (c_node D s2) A2 i2 e' e2 HG Hro); auto; try lia; apply strip_in; [apply Hp1|]; assumption. }
      subst e'. apply (HH2 k1 s1 A1 e2 X1); congruence.
Qed.
End End_.
