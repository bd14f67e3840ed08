(* Invariants of one replica under arbitrary inputs. *)
From Verif Require Import RaftLog Raft RaftSpec RaftChain RaftLogProofs MembershipSpec MembershipProofs UtilProofs.

Lemma bind_inv {A B} (x : outcome A) (f : A -> outcome B) y : bind x f = Ret y -> exists a, x = Ret a /\ f a = Ret y.
Proof. destruct x as [a|]; cbn; [eauto|discriminate]. Qed.
Ltac binv H := let a := fresh "a" in let E := fresh "E" in apply bind_inv in H; destruct H as [a [E H]].

(* --- the stored part of a log --------------------------------------------- *)
Definition stored (l : rlog) (applied : N) (A : list entry) : Prop :=
  exists d, l_entries l = skipn d A /\ l_oldest l = 1 + N.of_nat d /\ (d <= length A)%nat /\
    (d = 0%nat \/ 1 + N.of_nat d <= applied).

Lemma st_last l ap A : stored l ap A -> ap <= llen A -> last_idx l = llen A.
Proof.
  intros [d [He [Ho [Hd Hw]]]] Ha. unfold last_idx, llen in *. pose proof (skipn_length d A) as Hl.
  rewrite <- He in Hl. destruct (l_entries l) as [|e es] eqn:E; rewrite ?Ho; cbn [length] in Hl |- *; lia.
Qed.
Lemma st_at l ap A i : stored l ap A -> 0 < i ->
  at_idx l i = nth_entry A i \/ (at_idx l i = None /\ i < ap /\ i < l_oldest l).
Proof.
  intros [d [He [Ho [Hd Hw]]]] Hi. unfold at_idx, nth_entry. destruct (i =? 0) eqn:E0; [lia|].
  destruct (i <? l_oldest l) eqn:E; [right; repeat split; try lia|].
  left. rewrite He, nth_error_skipn. f_equal; lia.
Qed.
Lemma st_at0 l ap A : stored l ap A -> at_idx l 0 = None.
Proof. intros [d [He [Ho _]]]. unfold at_idx. rewrite Ho. destruct (_ <? _) eqn:E; [reflexivity|lia]. Qed.
Lemma st_at_some l ap A i e : stored l ap A -> at_idx l i = Some e -> nth_entry A i = Some e.
Proof.
  intros H E. destruct (N.eq_dec i 0) as [->|Hi]; [rewrite (st_at0 l ap A H) in E; discriminate|].
  destruct (st_at l ap A i H ltac:(lia)) as [<-|[E2 _]]; [assumption|congruence].
Qed.
Lemma st_at_ge l ap A i : stored l ap A -> l_oldest l <= i -> at_idx l i = nth_entry A i.
Proof.
  intros H Hi. assert (0 < i) by (destruct H as [d [_ [Ho _]]]; lia).
  destruct (st_at l ap A i H ltac:(assumption)) as [E|[_ [_ E]]]; [assumption|lia].
Qed.
Lemma st_oldest l ap A : stored l ap A -> ap <= llen A -> A <> [] -> oldest_idx l = l_oldest l.
Proof.
  intros [d [He [Ho [Hd Hw]]]] Ha HA. unfold oldest_idx. destruct (l_entries l) eqn:E; [|reflexivity].
  assert (Hl : length (skipn d A) = 0%nat) by now rewrite <- He.
  rewrite skipn_length in Hl. unfold llen in Ha. destruct A; [congruence|]. cbn [length] in *. lia.
Qed.
Lemma last_skipn {A} d (l : list A) x y : last (skipn d (l ++ [x])) y = x \/ (length l < d)%nat.
Proof.
  destruct (Nat.le_gt_cases d (length l)) as [H|H]; [left|right; lia].
  rewrite skipn_app. replace (d - length l)%nat with 0%nat by lia. apply last_last.
Qed.
Lemma st_tip hmac l ap A : stored l ap A -> ap <= llen A -> chained hmac A -> recent_hash l = tip A.
Proof.
  intros [d [He [Ho [Hd Hw]]]] Ha Hc. unfold recent_hash. rewrite He.
  destruct A as [|e A _] using rev_ind.
  - destruct d; reflexivity.
  - rewrite tip_snoc. rewrite app_length in Hd; cbn [length] in Hd. unfold llen in Ha; rewrite app_length in Ha; cbn [length] in Ha.
    rewrite skipn_app. replace (d - length A)%nat with 0%nat by lia. cbn [skipn]. rewrite rev_app_distr; cbn [rev app find].
    destruct (chained_hash_len hmac _ e Hc) as [Hh _]; [apply in_or_app; right; now left|].
    rewrite Hh. reflexivity.
Qed.
Lemma st_mono l ap ap' A : stored l ap A -> ap <= ap' -> stored l ap' A.
Proof. intros [d [H1 [H2 [H3 H4]]]] H. exists d; repeat split; auto; lia. Qed.

(* make_room whatever the byte count says *)
Lemma make_room_shape sz need t max es old b ok es' old' b' :
  make_room sz need t max es old b = Ret (ok, (es', old', b')) ->
  exists d, es' = skipn d es /\ old' = old + N.of_nat d /\ (d <= length es)%nat /\ (d = 0%nat \/ old + N.of_nat d <= t).
Proof.
  revert old b; induction es as [|e es IH]; intros old b; cbn [make_room].
  - destruct (_ <=? max); [|destruct (t <=? old); [|discriminate]];
      intros E; injection E as <- <- <- <-; exists 0%nat; cbn; repeat split; auto; lia.
  - destruct (_ <=? max); [|destruct (t <=? old) eqn:Et];
      try (intros E; injection E as <- <- <- <-; exists 0%nat; cbn; repeat split; auto; lia).
    intros E. destruct (IH _ _ E) as [d [-> [-> [H1 H2]]]]. exists (S d). cbn [skipn length]. repeat split; lia.
Qed.

Lemma append_stored sz e l ap A l' r : stored l ap A -> ap <= llen A ->
  append sz e ap l = Ret (l', r) ->
  stored l' ap (match r with L_OK => A ++ [e] | _ => A end) /\
  (r = L_OK -> e_term e <> 0 /\ length (e_hash e) = 32%nat).
Proof.
  intros Hst Ha E. pose proof Hst as [d [He [Ho [Hd Hw]]]]. unfold append in E.
  destruct (e_term e =? 0) eqn:Et; [injection E as <- <-; split; [assumption|discriminate]|].
  destruct (blen (e_hash e) =? 32) eqn:Eh; cbn [negb] in E; [|injection E as <- <-; split; [assumption|discriminate]].
  binv E. destruct a as [ok [[es old] b]]. destruct (make_room_shape _ _ _ _ _ _ _ _ _ _ _ E0) as [k [-> [-> [Hk1 Hk2]]]].
  assert (Hlen : length (l_entries l) = (length A - d)%nat) by (rewrite He; apply skipn_length).
  assert (Hsk : skipn k (l_entries l) = skipn (d + k) A).
  { rewrite He. clear. revert A; induction d as [|d IH]; intros A; [reflexivity|].
    destruct A; cbn [skipn Nat.add]; [now rewrite skipn_nil|apply IH]. }
  assert (Hs : stored (RLog (skipn k (l_entries l)) (l_oldest l + N.of_nat k) b (l_max l)) ap A).
  { exists (d + k)%nat. cbn [l_entries l_oldest]. repeat split; auto; try lia. }
  destruct ok; cbn [negb] in E; [|injection E as <- <-; split; [assumption|discriminate]].
  destruct (INT_MAX <? byte_size e); injection E as <- <-; (split; [|try discriminate]); [assumption| |].
  - exists (d + k)%nat. cbn [l_entries l_oldest]. rewrite Hsk, app_length. repeat split; try lia.
    rewrite skipn_app. now replace (d + k - length A)%nat with 0%nat by lia.
  - intros _. split; [lia|]. unfold blen in Eh. lia.
Qed.
Lemma cancel_stored idx l ap A l' r : stored l ap A -> 0 < idx -> idx <= llen A -> ap < idx ->
  cancel_from idx l = (l', r) -> r = L_OK /\ stored l' ap (upto (idx - 1) A).
Proof.
  intros [d [He [Ho [Hd Hw]]]] H0 H1 H2 E. unfold llen in *. unfold cancel_from in E.
  destruct (idx <? l_oldest l) eqn:El; [lia|]. injection E as <- <-. split; [reflexivity|].
  exists d. cbn [l_entries l_oldest]. rewrite resize_firstn, He by (rewrite He, skipn_length; lia).
  unfold upto. rewrite firstn_length. repeat split; try lia.
  replace (N.to_nat (idx - l_oldest l)) with (N.to_nat (idx - 1) - d)%nat by lia. apply firstn_skipn_sub.
Qed.


(* --- follower maps -------------------------------------------------------- *)
Lemma in_put {V} k (v : V) m k' v' : In (k', v') (put k v m) -> (k' = k /\ v' = v) \/ In (k', v') m.
Proof.
  induction m as [|[j w] m IH]; cbn [put].
  - intros [E|[]]; injection E as <- <-; auto.
  - destruct (bcmp k j); cbn [In]; intros [E|H]; try (injection E as <- <-; auto); auto.
    destruct (IH H); auto.
Qed.
Lemma map_followers_in f fs k v : In (k, v) (map_followers f fs) -> exists w, In (k, w) fs /\ v = f w.
Proof. unfold map_followers. rewrite in_map_iff. intros [[j w] [E H]]. cbn in E; injection E as <- <-. eauto. Qed.
Lemma map_followers_sorted f fs : sorted fs -> sorted (map_followers f fs).
Proof.
  induction fs as [|[k v] fs IH]; cbn [map_followers map sorted fst snd]; [auto|]. intros [H1 H2]; split; [|now apply IH].
  apply all_above_iff. intros k' v' Hin. destruct (map_followers_in f fs k' v' Hin) as [w [Hw _]].
  rewrite all_above_iff in H1. eauto.
Qed.
Lemma filter_sorted {V} (p : bytes * V -> bool) (m : list (bytes * V)) : sorted m -> sorted (filter p m).
Proof.
  induction m as [|[k v] m IH]; cbn [filter sorted]; [auto|]. intros [H1 H2].
  destruct (p (k, v)); [|auto]. cbn [sorted]; split; [|auto].
  apply all_above_iff. intros k' v' Hin. apply filter_In in Hin as [Hin _].
  rewrite all_above_iff in H1. eauto.
Qed.

(* what "the node goes on" means for facts about its messages *)
Record grow (n : node) (A : list entry) (n' : node) (A' : list entry) : Prop := MkGrow {
  gr_me : n_me n' = n_me n;
  gr_group : n_group n' = n_group n;
  gr_term : n_term n' = n_term n;
  gr_voted : n_voted n' = n_voted n;
  gr_promise : n_promise n <= n_promise n';
  gr_log : prefix A A'
}.
Lemma grow_refl n A : grow n A n A. Proof. constructor; auto; [lia|apply prefix_refl]. Qed.
Lemma grow_trans n A n1 A1 n2 A2 : grow n A n1 A1 -> grow n1 A1 n2 A2 -> grow n A n2 A2.
Proof. intros [] []; constructor; try congruence; [lia|eapply prefix_trans; eassumption]. Qed.

(* what may change in a replica *)
Record Ev (n : node) (A : list entry) (n' : node) (A' : list entry) : Prop := MkEv {
  ev_me : n_me n' = n_me n;
  ev_group : n_group n' = n_group n;
  ev_sm : n_sm n' = n_sm n;
  ev_term : n_term n <= n_term n';
  ev_vote : n_term n' = n_term n -> n_voted n = None \/ n_voted n' = n_voted n;
  ev_commit : n_commit n <= n_commit n';
  ev_promise : n_promise n <= n_promise n';
  ev_applied : n_applied n' = n_applied n;
  ev_keep : prefix (upto (N.max (n_commit n) (n_promise n)) A) A'
}.
Lemma keep_trans {T} i j (A A1 A2 : list T) : prefix (upto i A) A1 -> prefix (upto j A1) A2 -> i <= j -> prefix (upto i A) A2.
Proof.
  intros H1 H2 Hij. eapply prefix_trans; [|exact H2].
  pose proof (prefix_firstn _ _ H1) as E. rewrite E. unfold upto.
  assert (Hl : llen (upto i A) <= j) by (unfold llen, upto; rewrite firstn_length; lia).
  pose proof (upto_le _ _ A1 Hl) as Hp. unfold upto, llen in *. now rewrite Nat2N.id in Hp.
Qed.
Lemma Ev_refl n A : Ev n A n A. Proof. constructor; auto; try lia; apply prefix_upto. Qed.
Lemma Ev_trans n A n1 A1 n2 A2 : Ev n A n1 A1 -> Ev n1 A1 n2 A2 -> Ev n A n2 A2.
Proof.
  intros H1 H2. destruct H1, H2. constructor; try congruence; try lia.
  - intros E. assert (n_term n1 = n_term n) by lia. assert (n_term n2 = n_term n1) by lia.
    destruct (ev_vote0 H) as [|Hv]; [auto|]. destruct (ev_vote1 H0) as [|Hv1]; [left; congruence|right; congruence].
  - eapply keep_trans; [exact ev_keep0|exact ev_keep1|lia].
Qed.

(* the same, entries being handed out *)
Record EvH (n : node) (A : list entry) (n' : node) (A' : list entry) : Prop := MkEvH {
  eh_me : n_me n' = n_me n;
  eh_group : n_group n' = n_group n;
  eh_sm : n_sm n' = n_sm n;
  eh_term : n_term n <= n_term n';
  eh_vote : n_term n' = n_term n -> n_voted n = None \/ n_voted n' = n_voted n;
  eh_commit : n_commit n <= n_commit n';
  eh_promise : n_promise n <= n_promise n';
  eh_applied : n_applied n <= n_applied n';
  eh_keep : prefix (upto (N.max (n_commit n) (n_promise n)) A) A'
}.
Lemma Ev_EvH n A n' A' : Ev n A n' A' -> EvH n A n' A'.
Proof. intros []; constructor; auto; lia. Qed.
Lemma EvH_refl n A : EvH n A n A. Proof. apply Ev_EvH, Ev_refl. Qed.
Lemma EvH_trans n A n1 A1 n2 A2 : EvH n A n1 A1 -> EvH n1 A1 n2 A2 -> EvH n A n2 A2.
Proof.
  intros H1 H2. destruct H1, H2. constructor; try congruence; try lia.
  - intros E. assert (n_term n1 = n_term n) by lia. assert (n_term n2 = n_term n1) by lia.
    destruct (eh_vote0 H) as [|Hv]; [auto|]. destruct (eh_vote1 H0) as [|Hv1]; [left; congruence|right; congruence].
  - eapply keep_trans; [exact eh_keep0|exact eh_keep1|lia].
Qed.
Lemma and_assoc_r (a b c : Prop) : (a /\ b /\ c) <-> ((a /\ b) /\ c). Proof. tauto. Qed.

(* everything but the log, the membership and the followers stays *)
Record quiet (n n' : node) : Prop := MkQuiet {
  q_applied : n_applied n' = n_applied n; q_commit : n_commit n' = n_commit n; q_promise : n_promise n' = n_promise n;
  q_term : n_term n' = n_term n; q_voted : n_voted n' = n_voted n; q_out : n_out n' = n_out n;
  q_me : n_me n' = n_me n; q_group : n_group n' = n_group n;
  q_leader : is_leader n' = is_leader n; q_role : is_leader n = false -> n_role n' = n_role n
}.
Lemma quiet_refl n : quiet n n. Proof. constructor; auto. Qed.
Lemma quiet_trans n n1 n2 : quiet n n1 -> quiet n1 n2 -> quiet n n2.
Proof. intros [] []; constructor; try congruence. intros H. rewrite q_role1, q_role0; congruence. Qed.

Section Node.
Variable sz : sizes.
Variable hmac : bytes -> bytes -> bytes.
(* Facts about the rest of the group, left open here.
   G t A k p: follower k is known, in term t, to have promised the first p entries of A
   W me t k: k is known to have voted for me in term t
   L me t  : me won the election of term t
   Cm t X A c: the first c entries of A are known, in term t, to be committed, X being what
             this replica has promised itself
   MP n A m: message m of n is as it should be
   K A     : A is a log the group can have;  MS: the membership likewise *)
Variable G : N -> list entry -> bytes -> N -> Prop.
Variable W : bytes -> N -> bytes -> Prop.
Variable L : bytes -> N -> Prop.
Variable Cm : N -> list entry -> list entry -> N -> Prop.
Variable MP : node -> list entry -> option bytes * rmsg -> Prop.
Variable K : list entry -> Prop.
Variable MS : members -> list (N * members) -> Prop.
Variable ID : bytes -> N -> Prop.   (* who this is: its name and super_majority *)
Variable Vr : bytes -> N -> Prop.   (* a vote given to this peer in this term is justified *)

Definition role_ok (n : node) (A : list entry) (r : rrole) : Prop :=
  match r with
  | Leader fs _ _ =>
      sorted fs /\ (voting n = true /\ L (n_me n) (n_term n)) /\ n_voted n = Some (n_me n) /\
      forall k f, In (k, f) fs -> f_match f <= llen A /\ k <> n_me n /\ G (n_term n) A k (f_promise f)
  | Candidate votes _ =>
      ssorted votes /\ n_voted n = Some (n_me n) /\ In (n_me n) votes /\
      forall k, In k votes -> In k (m_voting (mship n)) /\ W (n_me n) (n_term n) k
  | _ => True
  end.
(* the memberships not yet committed, latest first: none is beyond entry b *)
Fixpoint dsc (b : N) (u : list (N * members)) : Prop :=
  match u with [] => True | (i, _) :: u' => i <= b /\ dsc i u' end.
Record RI (n : node) (A : list entry) : Prop := MkRI {
  ri_st : stored (n_log n) (n_applied n) A;
  ri_ac : n_applied n <= n_commit n;
  ri_al : n_applied n <= llen A;
  ri_pl : n_promise n <= llen A;
  ri_ch : chained hmac A;
  ri_k : K A;
  ri_ms : MS (n_mem n) (n_unc n);
  ri_id : ID (n_me n) (n_sm n);
  ri_cm : Cm (n_term n) (upto (n_promise n) A) A (n_commit n);
  ri_ro : role_ok n A (n_role n);
  ri_out : Forall (MP n A) (n_out n);
  ri_un : dsc (llen A) (rev (n_unc n))
}.

Hypothesis HG0 : forall t A k, G t A k 0.
Hypothesis HGx : forall t A B k p, G t A k p -> G t (A ++ B) k p.
Hypothesis HCm : forall t X A c t' X' A', Cm t X A c -> t <= t' -> prefix X X' -> prefix (upto c A) A' -> Cm t' X' A' c.
Hypothesis HMP : forall n A n' A' m, MP n A m -> grow n A n' A' -> MP n' A' m.
Hypothesis HKcut : forall t X A c i, K A -> Cm t X A c -> c <= i -> K (upto i A).
Hypothesis HMSadd : forall A e g m mm u, K A -> K (A ++ [e]) -> MS mm u -> e_inner e = IMember g ->
  from_proto g = (m, M_OK) -> MS mm (u ++ [(llen A + 1, m)]).
Hypothesis HMSsub : forall m u m' u', MS m u -> In m' (m :: map snd u) -> incl u' u -> MS m' u'.
Hypothesis HWme : forall n t, ID (n_me n) (n_sm n) -> MS (n_mem n) (n_unc n) -> voting n = true -> W (n_me n) t (n_me n).
Hypothesis HL : forall n t votes, ID (n_me n) (n_sm n) -> MS (n_mem n) (n_unc n) -> ssorted votes -> In (n_me n) votes ->
  (forall k, In k votes -> In k (m_voting (mship n)) /\ W (n_me n) t k) -> quorum n <= psize votes -> L (n_me n) t.
Hypothesis HCadv : forall n A fs hb rel c, RI n A -> n_role n = Leader fs hb rel ->
  kth (quorum n) (sort_desc (voter_values f_promise n fs ++ [n_promise n])) = Ret c ->
  n_commit n < c -> Cm (n_term n) (upto (n_promise n) A) A c.
Hypothesis HMPquiet : forall n A to b, RI n A ->
  (match b with VoteReq _ _ _ => n_voted n = Some (n_me n) | VoteResp false | AppResp false _ _ _ _ | TimeoutNow => True | _ => False end) ->
  MP n A (to, RMsg (n_group n) (n_term n) b).
Hypothesis HKnone : forall A e, K A -> e_inner e = INone -> K (A ++ [e]).
Hypothesis HMPgrant : forall n A to, RI n A -> n_voted n = Some to -> Vr to (n_term n) ->
  MP n A (Some to, RMsg (n_group n) (n_term n) (VoteResp true)).
Hypothesis HMPapp : forall n A to prev es rest, RI n A -> is_leader n = true -> prev <= llen A ->
  (prev = 0 \/ at_idx (n_log n) prev <> None) -> skipn (N.to_nat prev) A = es ++ rest ->
  MP n A (Some to, RMsg (n_group n) (n_term n)
    (AppReq prev (if prev =? 0 then 0 else term_at (n_log n) prev) (N.min (n_commit n) (prev + llen es)) es
       (N.min (n_promise n) (prev + llen es)) (if prev =? 0 then [] else hash_at (n_log n) prev))).
Hypothesis HMPresp : forall n A to p, RI n A -> p <= llen A ->
  MP n A (Some to, RMsg (n_group n) (n_term n)
    (AppResp true p (last_idx (n_log n)) (N.min (n_promise n) p) (hash_at (n_log n) p))).

Definition fine (n : node) (A : list entry) (n' : node) (A' : list entry) : Prop := RI n' A' /\ Ev n A n' A'.
Lemma fine_refl n A : RI n A -> fine n A n A. Proof. intros H; split; [assumption|apply Ev_refl]. Qed.
Lemma fine_trans n A n1 A1 n2 A2 : fine n A n1 A1 -> fine n1 A1 n2 A2 -> fine n A n2 A2.
Proof. intros [_ H1] [H2 H3]; split; [assumption|eapply Ev_trans; eassumption]. Qed.
Lemma fine_RI n A n' A' : fine n A n' A' -> RI n' A'. Proof. now intros []. Qed.

Lemma RI_last n A : RI n A -> last_idx (n_log n) = llen A.
Proof. intros []; eapply st_last; eassumption. Qed.

Lemma out_grow n A n' A' : Forall (MP n A) (n_out n) -> grow n A n' A' -> Forall (MP n' A') (n_out n).
Proof. intros H Hg. eapply Forall_impl; [|exact H]. intros m Hm. eapply HMP; eassumption. Qed.

(* messages *)
Lemma fine_msg n A to m : RI n A -> MP n A (to, m) -> fine n A (set_out (n_out n ++ [(to, m)]) n) A.
Proof.
  intros HR Hm. assert (Hg : grow n A (set_out (n_out n ++ [(to, m)]) n) A) by (constructor; auto; [cbn; lia|apply prefix_refl]).
  destruct HR; split; constructor; auto; cbn; try lia; try apply prefix_upto.
  apply Forall_app; split; [|constructor; [|constructor]]; [eapply out_grow; eassumption|eapply HMP; eassumption].
Qed.
Lemma add_msg_cases to m n n' : add_msg to m n = Ret n' -> n' = n \/ n' = set_out (n_out n ++ [(to, m)]) n.
Proof.
  unfold add_msg. destruct to.
  - destruct (beq _ _); [discriminate|]. intros E; injection E as <-. eauto.
  - destruct (_ && _)%bool; intros E; injection E as <-; auto.
Qed.
Lemma add_msg_fine to m n n' A : RI n A -> MP n A (to, m) -> add_msg to m n = Ret n' -> fine n A n' A.
Proof. intros H Hm E. destruct (add_msg_cases _ _ _ _ E) as [->| ->]; [now apply fine_refl|now apply fine_msg]. Qed.
Lemma reply_fine to b n n' A : RI n A -> MP n A (Some to, RMsg (n_group n) (n_term n) b) -> reply to b n = Ret n' -> fine n A n' A.
Proof. apply add_msg_fine. Qed.

(* roles *)
Lemma grow_same n A n' : n_me n' = n_me n -> n_group n' = n_group n -> n_term n' = n_term n -> n_voted n' = n_voted n ->
  n_promise n' = n_promise n -> grow n A n' A.
Proof. intros; constructor; auto; [lia|apply prefix_refl]. Qed.
Lemma fine_role n A r : RI n A -> role_ok n A r -> fine n A (set_role r n) A.
Proof.
  intros HR Hr. assert (Hg : grow n A (set_role r n) A) by (apply grow_same; reflexivity).
  destruct HR; split; constructor; auto; cbn; try lia; try apply prefix_upto. eapply out_grow; eassumption.
Qed.
Lemma fine_cfg n A c : RI n A -> fine n A (set_cfg c n) A.
Proof.
  intros HR. assert (Hg : grow n A (set_cfg c n) A) by (apply grow_same; reflexivity).
  destruct HR; split; constructor; auto; cbn; try lia; try apply prefix_upto. eapply out_grow; eassumption.
Qed.
(* a change of followers that keeps what is known of each *)
Lemma role_ok_followers n A fs hb rel fs' hb' rel' :
  role_ok n A (Leader fs hb rel) -> sorted fs' ->
  (forall k f, In (k, f) fs' -> k <> n_me n /\ ((f_match f = 0 /\ f_promise f = 0) \/
     exists g, In (k, g) fs /\ f_match f = f_match g /\ f_promise f = f_promise g)) ->
  role_ok n A (Leader fs' hb' rel').
Proof.
  intros [H1 [H2 [H3 H4]]] Hs H. do 3 (split; [assumption|]). intros k f Hin.
  destruct (H k f Hin) as [Hk [[-> ->]|[g [Hg [-> ->]]]]].
  - split; [lia|]. split; [assumption|apply HG0].
  - destruct (H4 k g Hg) as [? [? ?]]. auto.
Qed.

Lemma hmc_fine n A : RI n A -> fine n A (handle_membership_change n) A.
Proof.
  intros HR. unfold handle_membership_change. destruct (n_role n) as [| |fs hb rel] eqn:Er; try now apply fine_refl.
  apply fine_role; [assumption|]. pose proof (ri_ro _ _ HR) as Hro. rewrite Er in Hro.
  set (fresh := Repl _ 0 0 None true true false _).
  set (f := fun m p => if (negb (beq p (n_me n)) && match lookup p m with None => true | _ => false end)%bool then put p fresh m else m).
  assert (Hf : forall l m, sorted m -> sorted (fold_left f l m) /\
    forall k v, In (k, v) (fold_left f l m) -> In (k, v) m \/ (k <> n_me n /\ v = fresh)).
  { induction l as [|p l IH]; intros m Hm; cbn [fold_left]; [auto|].
    assert (Hm' : sorted (f m p)) by (unfold f; destruct (_ && _)%bool; [now apply sorted_put|assumption]).
    destruct (IH _ Hm') as [I1 I2]. split; [assumption|]. intros k v Hin. destruct (I2 k v Hin) as [H|H]; [|auto].
    unfold f in H. destruct (beq p (n_me n)) eqn:Eb; cbn [negb andb] in H; [auto|].
    destruct (lookup p m); [auto|]. destruct (in_put _ _ _ _ _ H) as [[-> ->]|]; [|auto]. right; split; [|reflexivity].
    intros ->. rewrite beq_refl in Eb; discriminate. }
  destruct (Hf (m_all (mship n)) fs (proj1 Hro)) as [F1 F2].
  eapply role_ok_followers; [exact Hro|now apply filter_sorted|].
  intros k v Hin. apply filter_In in Hin as [Hin _]. destruct (F2 k v Hin) as [H|[Hk ->]].
  - split; [apply (proj2 (proj2 (proj2 Hro)) k v H)|right; eauto].
  - split; [assumption|left; auto].
Qed.
Lemma hmc_quiet n : quiet n (handle_membership_change n).
Proof. unfold handle_membership_change. destruct (n_role n) eqn:E; constructor; auto; unfold is_leader; cbn; now rewrite E. Qed.
Lemma hmc_log n : n_log (handle_membership_change n) = n_log n.
Proof. unfold handle_membership_change. now destruct (n_role n). Qed.

Lemma dsc_weak b c u : b <= c -> dsc b u -> dsc c u.
Proof. destruct u as [|[i m] u]; cbn; [auto|]. intros H [H1 H2]. split; [lia|assumption]. Qed.
Lemma dsc_app b u v : dsc b (u ++ v) -> dsc b u.
Proof.
  revert b; induction u as [|[i m] u IH]; intros b; cbn [app dsc]; [auto|]. intros [H1 H2]. split; [assumption|]. exact (IH i H2).
Qed.
(* a change of membership that leaves the one in use alone, or at a follower *)
Definition new_members (n : node) (m : members) (u : list (N * members)) : Prop :=
  match n_role n with
  | Follower _ _ => True
  | Candidate _ _ => last (map snd u) m = mship n
  | Leader _ _ _ => In (n_me n) (m_voting (last (map snd u) m))
  end.
Lemma same_members n A m u : RI n A -> last (map snd u) m = mship n -> new_members n m u.
Proof.
  intros HR E. unfold new_members. pose proof (ri_ro _ _ HR) as Hro. destruct (n_role n); auto.
  rewrite E. destruct Hro as [_ [[H _] _]]. now apply pmem_In.
Qed.
Lemma new_role n A m u : role_ok n A (n_role n) -> new_members n m u -> role_ok (set_members m u n) A (n_role n).
Proof.
  unfold new_members. destruct (n_role n) as [|v e|fs hb rel]; auto.
  - intros [H1 [H2 [H3 H4]]] E. do 3 (split; [assumption|]). intros k Hk. unfold mship at 1; cbn [set_members n_unc n_mem]. rewrite E. exact (H4 k Hk).
  - intros [H1 [[_ H2] H3]] E. split; [assumption|]. split; [|assumption]. split; [|assumption]. unfold voting, mship; cbn [set_members n_unc n_mem n_me].
    now apply pmem_In.
Qed.
Lemma fine_members n A m u : RI n A -> MS m u -> dsc (llen A) (rev u) -> new_members n m u -> fine n A (set_members m u n) A.
Proof.
  intros HR Hr Hd Hn. assert (Hg : grow n A (set_members m u n) A) by (apply grow_same; reflexivity).
  pose proof (new_role n A m u (ri_ro _ _ HR) Hn) as Hro.
  destruct HR; split; constructor; auto; cbn; try lia; try apply prefix_upto. eapply out_grow; eassumption.
Qed.

Lemma pop_committed_in c m u : let (m', u') := pop_committed c m u in In m' (m :: map snd u) /\ incl u' u.
Proof.
  revert m; induction u as [|[i x] u IH]; intros m; cbn [pop_committed]; [split; [now left|apply incl_refl]|].
  destruct (i <=? c); [|split; [now left|apply incl_refl]].
  specialize (IH x). destruct (pop_committed c x u) as [m' u']. destruct IH as [I1 I2].
  split; [right; exact I1|now apply incl_tl].
Qed.
Lemma pop_cancelled_incl l u : incl (pop_cancelled l u) u.
Proof.
  induction u as [|[i x] u IH]; cbn [pop_cancelled]; [apply incl_refl|].
  destruct (l <? i); [now apply incl_tl|apply incl_refl].
Qed.
Lemma pop_committed_last c m u : let (m', u') := pop_committed c m u in last (map snd u') m' = last (map snd u) m /\ exists v, u = v ++ u'.
Proof.
  revert m; induction u as [|[i x] u IH]; intros m; cbn [pop_committed]; [split; [reflexivity|now exists []]|].
  destruct (i <=? c); [|split; [reflexivity|now exists []]].
  specialize (IH x). destruct (pop_committed c x u) as [m' u']. destruct IH as [-> [v ->]]. split; [|now exists ((i, x) :: v)].
  cbn [map snd]. destruct (map snd (v ++ u')) as [|y l]; [reflexivity|]. change (last (x :: y :: l) m) with (last (y :: l) m).
  generalize y. induction l as [|z l IH]; intros w; [reflexivity|]. exact (IH z).
Qed.
Lemma pop_cancelled_dsc l b u : dsc b u -> dsc l (pop_cancelled l u).
Proof.
  revert b; induction u as [|[i x] u IH]; intros b; cbn [pop_cancelled]; [auto|]. intros [H1 H2].
  destruct (l <? i) eqn:E; [exact (IH i H2)|]. cbn. split; [lia|assumption].
Qed.
Lemma pop_cancelled_none l u : dsc l u -> pop_cancelled l u = u.
Proof. destruct u as [|[i x] u]; cbn; [auto|]. intros [H _]. destruct (l <? i) eqn:E; [lia|reflexivity]. Qed.
Lemma refresh_fine n A : RI n A -> fine n A (refresh_members n) A.
Proof.
  intros HR. unfold refresh_members. pose proof (pop_committed_in (n_commit n) (n_mem n) (n_unc n)) as Hp.
  pose proof (pop_committed_last (n_commit n) (n_mem n) (n_unc n)) as Hl.
  destruct (pop_committed _ _ _) as [m u]. destruct Hp as [H1 H2]. destruct Hl as [H3 [v H4]].
  assert (Hd : dsc (llen A) (rev u)).
  { pose proof (ri_un _ _ HR) as X. rewrite H4, rev_app_distr in X. now apply dsc_app in X. }
  rewrite (RI_last _ _ HR), pop_cancelled_none, rev_involutive by assumption.
  destruct (Nat.eqb _ _); [now apply fine_refl|].
  assert (Hm : fine n A (set_members m u n) A).
  { apply fine_members; [assumption| |assumption|now apply (same_members n A)]. eapply HMSsub; [apply (ri_ms _ _ HR)|exact H1|assumption]. }
  eapply fine_trans; [exact Hm|]. apply hmc_fine, Hm.
Qed.
Lemma refresh_quiet n : quiet n (refresh_members n).
Proof.
  unfold refresh_members. destruct (pop_committed _ _ _) as [m u]. destruct (Nat.eqb _ _); [apply quiet_refl|].
  eapply quiet_trans; [|apply hmc_quiet]. constructor; auto.
Qed.
Lemma refresh_log n : n_log (refresh_members n) = n_log n.
Proof.
  unfold refresh_members. destruct (pop_committed _ _ _) as [m u]. destruct (Nat.eqb _ _); [reflexivity|].
  now rewrite hmc_log.
Qed.

(* --- appending ------------------------------------------------------------ *)
Lemma role_ok_log n A e r : role_ok n A r -> role_ok n (A ++ [e]) r.
Proof.
  destruct r; cbn; auto. intros [H1 [H2 [H3 H4]]]. do 3 (split; [assumption|]).
  intros k f Hin. destruct (H4 k f Hin) as [? [? ?]]. rewrite llen_app. repeat split; auto; lia.
Qed.
Lemma fine_log_grow n A l A' : RI n A -> stored l (n_applied n) A' -> (A' = A \/ exists e, A' = A ++ [e]) ->
  chained hmac A' -> K A' -> fine n A (set_log l n) A' /\ grow n A (set_log l n) A'.
Proof.
  intros HR Hst Hc Hch HK.
  assert (Hpre : prefix A A') by (destruct Hc as [->|[e ->]]; [apply prefix_refl|apply prefix_app]).
  assert (Hg : grow n A (set_log l n) A') by (constructor; auto; cbn; lia).
  pose proof (prefix_len _ _ Hpre) as Hlen.
  split; [|assumption].
  destruct HR; split; constructor; auto; cbn [set_log n_log n_applied n_commit n_promise n_term n_voted n_role n_me n_out n_mem n_unc n_group n_sm];
    try (unfold llen in *; lia); try (eapply prefix_trans; [apply prefix_upto|exact Hpre]).
  - rewrite <- (prefix_upto_eq _ _ _ Hpre) by assumption.
    eapply HCm; [exact ri_cm0|lia|apply prefix_refl|eapply prefix_trans; [apply prefix_upto|exact Hpre]].
  - destruct Hc as [->|[e ->]]; [exact ri_ro0|now apply role_ok_log].
  - eapply out_grow; eassumption.
  - eapply dsc_weak; [|exact ri_un0]. unfold llen; lia.
Qed.

Lemma hmc_grow n A : grow n A (handle_membership_change n) A.
Proof. destruct (hmc_quiet n). apply grow_same; auto. Qed.

Lemma log_append_fine n A e n' l er :
  RI n A -> e_hash e = hmac (tip A) (tagged (e_inner e) (llen A + 1) (e_term e)) -> K (A ++ [e]) ->
  (forall g m, e_inner e = IMember g -> from_proto g = (m, M_OK) -> match n_role n with
     | Follower _ _ => True | Candidate _ _ => False | Leader _ _ _ => In (n_me n) (m_voting m) end) ->
  log_append sz e n = Ret (n', (l, er)) ->
  exists A', fine n A n' A' /\ grow n A n' A' /\ quiet n n' /\
    ((er = RE_OK /\ A' = A ++ [e] /\ l = Loc (n_term n) (llen A + 1) (e_hash e)) \/ (er <> RE_OK /\ A' = A)).
Proof.
  intros HR Hh HK Hnew E. unfold log_append in E.
  set (mem := match e_inner e with IMember g => Some (from_proto g) | _ => None end) in *.
  assert (Hcase : (exists m x, mem = Some (m, x) /\ x <> M_OK) \/
    ((exists m, mem = Some (m, M_OK)) \/ mem = None)).
  { destruct mem as [[m x]|]; [|auto]. destruct x; try (left; eexists _, _; split; [reflexivity|discriminate]); right; left; eauto. }
  destruct Hcase as [[m [x [Em Hx]]]|Hcase].
  { rewrite Em in E. destruct x; try congruence; injection E as <- _ <-; exists A;
      (split; [now apply fine_refl|]); (split; [apply grow_refl|]); (split; [apply quiet_refl|]); right; split; congruence. }
  assert (E' : (let* '(l, er) := append sz e (n_applied n) (n_log n) in
      let n1 := set_log l n in
      match er with
      | L_OK =>
          let here := Loc (n_term n1) (last_idx l) (e_hash e) in
          match mem with
          | Some (m, _) => let* n2 := add_uncommitted (lc_idx here) m n1 in Ret (n2, (here, RE_OK))
          | None => Ret (n1, (here, RE_OK))
          end
      | _ => Ret (n1, (no_loc, RE_Log er))
      end) = Ret (n', (l, er))).
  { destruct Hcase as [[m ->]| ->]; exact E. }
  clear E. binv E'. destruct a as [l1 r1].
  destruct (append_stored sz e (n_log n) (n_applied n) A l1 r1 (ri_st _ _ HR) (ri_al _ _ HR) E) as [Hst Hok].
  assert (Hq : quiet n (set_log l1 n)) by (constructor; auto).
  assert (Hbad : r1 <> L_OK -> Ret (set_log l1 n, (no_loc, RE_Log r1)) = Ret (n', (l, er)) ->
     exists A', fine n A n' A' /\ grow n A n' A' /\ quiet n n' /\ ((er = RE_OK /\ A' = A ++ [e] /\ l = Loc (n_term n) (llen A + 1) (e_hash e)) \/ (er <> RE_OK /\ A' = A))).
  { intros Hr1 Er. injection Er as <- _ <-. exists A.
    assert (Hst' : stored l1 (n_applied n) A) by (destruct r1; try congruence; exact Hst).
    destruct (fine_log_grow n A l1 A HR Hst' (or_introl eq_refl) (ri_ch _ _ HR) (ri_k _ _ HR)) as [F Gr].
    split; [exact F|]. split; [exact Gr|]. split; [exact Hq|]. right; split; [discriminate|reflexivity]. }
  destruct r1; try (apply Hbad; [discriminate|exact E']). clear Hbad. destruct (Hok eq_refl) as [Ht Hl].
  assert (Hch : chained hmac (A ++ [e])).
  { apply chained_snoc. split; [apply (ri_ch _ _ HR)|]. repeat split; auto. }
  destruct (fine_log_grow n A l1 (A ++ [e]) HR Hst (or_intror (ex_intro _ e eq_refl)) Hch HK) as [F Gr].
  assert (Hlast : last_idx l1 = llen A + 1).
  { rewrite (st_last l1 (n_applied n) (A ++ [e])); [now rewrite llen_app|exact Hst|].
    rewrite llen_app. pose proof (ri_al _ _ HR); lia. }
  cbn [lc_idx] in E'. cbv zeta in E'. exists (A ++ [e]).
  destruct Hcase as [[m Em]|Em]; rewrite Em in E'.
  - binv E'. injection E' as <- <- <-.
    assert (Hm : exists g, e_inner e = IMember g /\ from_proto g = (m, M_OK)).
    { unfold mem in Em. destruct (e_inner e); try discriminate. injection Em as Em. eauto. }
    destruct Hm as [g [Eg Em']].
    assert (Hms : MS (n_mem n) (n_unc n ++ [(last_idx l1, m)])).
    { rewrite Hlast. eapply HMSadd; eauto; [apply (ri_k _ _ HR)|apply (ri_ms _ _ HR)]. }
    assert (Ha : a = handle_membership_change (set_members (n_mem n) (n_unc n ++ [(last_idx l1, m)]) (set_log l1 n))).
    { unfold add_uncommitted in E0. cbn [set_log n_unc n_mem] in E0. destruct (n_unc n) as [|u us]; [injection E0 as <-; reflexivity|].
      destruct (_ <? _); [injection E0 as <-; reflexivity|discriminate]. }
    subst a.
    pose proof (fine_members _ _ (n_mem n) (n_unc n ++ [(last_idx l1, m)]) (fine_RI _ _ _ _ F) Hms) as F2.
    assert (F2' : fine (set_log l1 n) (A ++ [e]) (set_members (n_mem n) (n_unc n ++ [(last_idx l1, m)]) (set_log l1 n)) (A ++ [e])).
    { apply F2.
      - rewrite rev_app_distr. cbn [rev app dsc]. rewrite llen_app, Hlast. split; [unfold llen; cbn; lia|].
        eapply dsc_weak; [|apply (ri_un _ _ HR)]. lia.
      - specialize (Hnew g m Eg Em'). unfold new_members. cbn [set_log n_role n_me]. rewrite map_app. cbn [map snd]. rewrite last_last.
        destruct (n_role n); [exact I|contradiction|exact Hnew]. }
    clear F2; rename F2' into F2.
    split; [|split; [|split; [|left; rewrite Hlast; auto]]].
    + eapply fine_trans; [exact F|]. eapply fine_trans; [exact F2|]. apply hmc_fine, F2.
    + eapply grow_trans; [exact Gr|]. eapply grow_trans; [|apply hmc_grow]. apply grow_same; reflexivity.
    + eapply quiet_trans; [exact Hq|]. eapply quiet_trans; [|apply hmc_quiet]. constructor; auto.
  - injection E' as <- <- <-. split; [exact F|]. split; [exact Gr|]. split; [exact Hq|]. left; rewrite Hlast; auto.
Qed.

Lemma next_hash_tip n A x t : RI n A -> next_hash hmac (n_log n) t x = hmac (tip A) (tagged x (llen A + 1) t).
Proof.
  intros HR. unfold next_hash, next_idx. rewrite (RI_last n A HR).
  now rewrite (st_tip hmac (n_log n) (n_applied n) A (ri_st _ _ HR) (ri_al _ _ HR) (ri_ch _ _ HR)).
Qed.
Definition own_entry (A : list entry) (t : N) (x : inner) : entry :=
  Entry t x (hmac (tip A) (tagged x (llen A + 1) t)).
Lemma client_request_fine n A x n' l er :
  RI n A -> (is_leader n = true -> K (A ++ [own_entry A (n_term n) x])) ->
  (forall g m, x = IMember g -> from_proto g = (m, M_OK) -> is_leader n = true -> In (n_me n) (m_voting m)) ->
  client_request sz hmac x n = Ret (n', (l, er)) ->
  exists A', fine n A n' A' /\ grow n A n' A' /\ quiet n n' /\
    ((er = RE_OK /\ is_leader n = true /\ A' = A ++ [own_entry A (n_term n) x] /\
       l = Loc (n_term n) (llen A + 1) (e_hash (own_entry A (n_term n) x))) \/ (er <> RE_OK /\ A' = A)).
Proof.
  intros HR HK Hx E. unfold client_request in E.
  assert (Hno : Ret (n, (no_loc, RE_NotLeader)) = Ret (n', (l, er)) -> exists A', fine n A n' A' /\ grow n A n' A' /\ quiet n n' /\
    ((er = RE_OK /\ is_leader n = true /\ A' = A ++ [own_entry A (n_term n) x] /\
       l = Loc (n_term n) (llen A + 1) (e_hash (own_entry A (n_term n) x))) \/ (er <> RE_OK /\ A' = A))).
  { intros Er. injection Er as <- _ <-. exists A. split; [now apply fine_refl|]. split; [apply grow_refl|]. split; [apply quiet_refl|].
    right; split; [discriminate|reflexivity]. }
  destruct (n_role n) as [| |fs hb [|]] eqn:Er; try (apply Hno; exact E). clear Hno.
  assert (Hl : is_leader n = true) by (unfold is_leader; now rewrite Er).
  rewrite (next_hash_tip n A x (n_term n) HR) in E. fold (own_entry A (n_term n) x) in E.
  destruct (log_append_fine n A (own_entry A (n_term n) x) n' l er HR eq_refl (HK Hl) ltac:(intros g m Eg Em; rewrite Er; exact (Hx g m Eg Em Hl)) E) as [A' [H1 [H2 [H3 H4]]]].
  exists A'. do 3 (split; [assumption|]). destruct H4 as [[? [? ?]]|?]; auto.
Qed.

Lemma maybe_become_leader_fine n A n' :
  RI n A -> maybe_become_leader sz hmac n = Ret n' ->
  exists A', fine n A n' A' /\ grow n A n' A' /\ (A' = A \/ A' = A ++ [own_entry A (n_term n) INone]).
Proof.
  intros HR E. unfold maybe_become_leader in E.
  assert (Hno : Ret n = Ret n' -> exists A', fine n A n' A' /\ grow n A n' A' /\ (A' = A \/ A' = A ++ [own_entry A (n_term n) INone])).
  { intros Er; injection Er as <-. exists A. split; [now apply fine_refl|]. split; [apply grow_refl|auto]. }
  destruct (n_role n) as [|votes el|] eqn:Er; try (apply Hno; exact E).
  destruct (psize votes <? quorum n) eqn:Eq; [apply Hno; exact E|]. clear Hno.
  pose proof (ri_ro _ _ HR) as Hro. rewrite Er in Hro. destruct Hro as [V1 [V2 [V4 V3]]].
  set (fs := fold_left _ _ _) in E. binv E. destruct a as [n1 [l1 er1]]. injection E as <-.
  set (fresh := Repl (next_idx (n_log n)) 0 0 None false false false 0%Z) in *.
  assert (Hfs : sorted fs /\ forall k v, In (k, v) fs -> k <> n_me n /\ v = fresh).
  { unfold fs. assert (Hf : forall l m, sorted m -> (forall k v, In (k, v) m -> k <> n_me n /\ v = fresh) ->
      sorted (fold_left (fun m p => if beq p (n_me n) then m else put p fresh m) l m) /\
      forall k v, In (k, v) (fold_left (fun m p => if beq p (n_me n) then m else put p fresh m) l m) -> k <> n_me n /\ v = fresh).
    { induction l as [|p l IH]; intros m Hm Hv; cbn [fold_left]; [auto|]. destruct (beq p (n_me n)) eqn:Eb; [now apply IH|].
      apply IH; [now apply sorted_put|]. intros k v Hin. destruct (in_put _ _ _ _ _ Hin) as [[-> ->]|]; [|auto].
      split; [|reflexivity]. intros ->. rewrite beq_refl in Eb; discriminate. }
    apply Hf; [exact I|intros k v []]. }
  assert (F : fine n A (set_role (Leader fs 0%Z false) n) A).
  { apply fine_role; [assumption|]. split; [apply Hfs|]. split; [|split; [assumption|]].
    - split; [unfold voting; apply pmem_In, (V3 _ V4)|].
      apply (HL n (n_term n) votes (ri_id _ _ HR) (ri_ms _ _ HR) V1 V4 V3). lia.
    - intros k f Hin. destruct (proj2 Hfs k f Hin) as [Hk ->]. cbn. split; [lia|]. split; [assumption|apply HG0]. }
  destruct (client_request_fine _ A INone n1 l1 er1 (fine_RI _ _ _ _ F)) with (3 := E0) as [A' [H1 [H2 [H3 H4]]]].
  { intros _. apply HKnone; [apply (ri_k _ _ HR)|reflexivity]. }
  { discriminate. }
  exists A'. split; [eapply fine_trans; eassumption|]. split.
  - eapply grow_trans; [|exact H2]. apply grow_same; reflexivity.
  - destruct H4 as [[_ [_ [-> _]]]|[_ ->]]; auto.
Qed.

(* --- committing ----------------------------------------------------------- *)
Lemma insert_desc_In x y l : In y (insert_desc x l) <-> y = x \/ In y l.
Proof.
  induction l as [|z l IH]; cbn [insert_desc In]; [intuition|].
  destruct (z <=? x); cbn [In]; [intuition|]. rewrite IH. intuition.
Qed.
Lemma sort_desc_In y l : In y (sort_desc l) <-> In y l.
Proof. induction l as [|x l IH]; cbn [sort_desc fold_right In]; [tauto|]. fold (sort_desc l). rewrite insert_desc_In, IH. intuition. Qed.
Lemma kth_In k l x : kth k (sort_desc l) = Ret x -> In x l.
Proof.
  unfold kth. destruct (k =? 0); [discriminate|]. destruct (nth_error _ _) eqn:E; [|discriminate].
  intros H; injection H as <-. apply nth_error_In in E. now apply sort_desc_In.
Qed.
Lemma voter_values_In f n fs x : In x (voter_values f n fs) -> exists k v, In (k, v) fs /\ pmem k (m_voting (mship n)) = true /\ x = f v.
Proof.
  unfold voter_values. rewrite in_map_iff. intros [[k v] [<- H]]. apply filter_In in H as [H1 H2]. eauto.
Qed.
Lemma fine_promise n A p : RI n A -> n_promise n <= p -> p <= llen A -> fine n A (set_promise p n) A /\ grow n A (set_promise p n) A.
Proof.
  intros HR H1 H2. assert (Hg : grow n A (set_promise p n) A) by (constructor; auto; apply prefix_refl).
  split; [|exact Hg].
  destruct HR; split; constructor; auto; cbn [set_promise n_promise n_commit n_applied n_term n_out]; try lia; try apply prefix_upto.
  - eapply HCm; [exact ri_cm0|lia|now apply upto_le|apply prefix_upto].
  - eapply out_grow; eassumption.
Qed.
Lemma fine_commit n A c : RI n A -> n_commit n <= c -> Cm (n_term n) (upto (n_promise n) A) A c -> fine n A (set_commit c n) A /\ grow n A (set_commit c n) A.
Proof.
  intros HR H1 H2. assert (Hg : grow n A (set_commit c n) A) by (apply grow_same; reflexivity).
  split; [|exact Hg].
  destruct HR; split; constructor; auto; cbn [set_commit n_promise n_commit n_applied n_term n_out]; try lia; try apply prefix_upto.
  eapply out_grow; eassumption.
Qed.
Lemma mark_update_fine n A : RI n A -> fine n A (mark_update n) A /\ grow n A (mark_update n) A.
Proof.
  intros HR. unfold mark_update. destruct (n_role n) as [| |fs hb rel] eqn:Er; try (split; [now apply fine_refl|apply grow_refl]).
  pose proof (ri_ro _ _ HR) as Hro. rewrite Er in Hro.
  split; [|apply grow_same; reflexivity]. apply fine_role; [assumption|]. eapply role_ok_followers; [exact Hro|apply map_followers_sorted, Hro|].
  intros k f Hin. destruct (map_followers_in _ _ _ _ Hin) as [w [Hw ->]].
  split; [apply (proj2 (proj2 (proj2 Hro)) k w Hw)|]. right; exists w; auto.
Qed.
Lemma refresh_grow n A : grow n A (refresh_members n) A.
Proof. destruct (refresh_quiet n). apply grow_same; auto. Qed.

Lemma advance_commit_fine n A n' : RI n A -> advance_commit n = Ret n' -> fine n A n' A /\ grow n A n' A.
Proof.
  intros HR E. unfold advance_commit in E.
  destruct (n_role n) as [| |fs hb rel] eqn:Er; try (injection E as <-; split; [now apply fine_refl|apply grow_refl]).
  pose proof (ri_ro _ _ HR) as Hro. rewrite Er in Hro. destruct Hro as [R1 [R2 [R3 R4]]].
  binv E. rename a into np.
  assert (Hnp : np <= llen A).
  { apply kth_In, in_app_or in E0. destruct E0 as [H|[<-|[]]]; [|rewrite (RI_last _ _ HR); lia].
    apply voter_values_In in H as [k [v [Hin [_ ->]]]]. apply (R4 k v Hin). }
  set (n1 := if n_promise n <? np then set_promise np n else n) in *.
  assert (F1 : fine n A n1 A /\ grow n A n1 A).
  { unfold n1. destruct (n_promise n <? np) eqn:Ep; [apply fine_promise; auto; lia|split; [now apply fine_refl|apply grow_refl]]. }
  assert (Hn1r : n_role n1 = Leader fs hb rel) by (unfold n1; destruct (_ <? _); assumption).
  assert (Hn1m : mship n1 = mship n) by (unfold n1; destruct (_ <? _); reflexivity).
  assert (Hq1 : quorum n1 = quorum n) by (unfold n1; destruct (_ <? _); reflexivity).
  destruct F1 as [F1 Gr1]. binv E. rename a into nc.
  set (c := n_commit n1 <? nc) in *.
  set (n2 := if c then refresh_members (set_commit nc n1) else n1) in *.
  assert (F2 : fine n A n2 A /\ grow n A n2 A).
  { unfold n2, c. destruct (n_commit n1 <? nc) eqn:Ec; [|auto].
    assert (Hcm : Cm (n_term n1) (upto (n_promise n1) A) A nc).
    { apply (HCadv n1 A fs hb rel nc (fine_RI _ _ _ _ F1) Hn1r); [|lia].
      unfold voter_values in *. now rewrite Hn1m. }
    destruct (fine_commit n1 A nc (fine_RI _ _ _ _ F1) ltac:(lia) Hcm) as [F3 Gr3].
    split.
    - eapply fine_trans; [exact F1|]. eapply fine_trans; [exact F3|]. apply refresh_fine, F3.
    - eapply grow_trans; [exact Gr1|]. eapply grow_trans; [exact Gr3|apply refresh_grow]. }
  destruct F2 as [F2 Gr2]. injection E as <-. destruct (_ || _)%bool; [|auto].
  destruct (mark_update_fine n2 A (fine_RI _ _ _ _ F2)) as [F3 Gr3].
  split; [eapply fine_trans; eassumption|eapply grow_trans; eassumption].
Qed.
(* --- sending -------------------------------------------------------------- *)
Definition fg n A n' A' : Prop := fine n A n' A' /\ grow n A n' A'.
Lemma fg_refl n A : RI n A -> fg n A n A. Proof. intros H; split; [now apply fine_refl|apply grow_refl]. Qed.
Lemma fg_trans n A n1 A1 n2 A2 : fg n A n1 A1 -> fg n1 A1 n2 A2 -> fg n A n2 A2.
Proof. intros [] []; split; [eapply fine_trans|eapply grow_trans]; eassumption. Qed.
Lemma fg_RI n A n' A' : fg n A n' A' -> RI n' A'. Proof. intros [[] _]; assumption. Qed.
Lemma fg_role n A r : RI n A -> role_ok n A r -> fg n A (set_role r n) A.
Proof. intros H1 H2; split; [now apply fine_role|apply grow_same; reflexivity]. Qed.
Lemma fg_reply to b n n' A : RI n A -> MP n A (Some to, RMsg (n_group n) (n_term n) b) -> reply to b n = Ret n' -> fg n A n' A.
Proof.
  intros HR Hm E. split; [eapply reply_fine; eassumption|].
  destruct (add_msg_cases _ _ _ _ E) as [->| ->]; [apply grow_refl|apply grow_same; reflexivity].
Qed.

Lemma take_chunk_prefix max total es : exists r, es = take_chunk max total es ++ r.
Proof.
  revert total; induction es as [|e es IH]; intros total; cbn [take_chunk]; [now exists []|].
  destruct (max <=? _); [now exists es|]. destruct (IH (total + byte_size e)) as [r Hr]. exists r. cbn [app]. now rewrite <- Hr.
Qed.
Lemma entries_from_spec l ap A next : stored l ap A -> 0 < next ->
  exists r, skipn (N.to_nat (next - 1)) A = entries_from l next ++ r.
Proof.
  intros [d [He [Ho [Hd Hw]]]] Hn. unfold entries_from. destruct (next <? l_oldest l) eqn:E; [eexists; reflexivity|].
  exists []. rewrite app_nil_r, He.
  replace (N.to_nat (next - 1)) with (d + N.to_nat (next - l_oldest l))%nat by lia.
  generalize (N.to_nat (next - l_oldest l)). clear. intros k. revert A; induction d as [|d IH]; intros A; [reflexivity|].
  destruct A; cbn [skipn Nat.add]; [now rewrite skipn_nil|apply IH].
Qed.

Lemma append_entries_fg peer n A n' : RI n A -> append_entries peer n = Ret n' -> fg n A n' A.
Proof.
  intros HR E. unfold append_entries in E.
  destruct (n_role n) as [| |fs hb rel] eqn:Er; try (injection E as <-; now apply fg_refl).
  destruct (lookup peer fs) as [f|] eqn:El; [|injection E as <-; now apply fg_refl].
  pose proof (ri_ro _ _ HR) as Hro. rewrite Er in Hro.
  cbv zeta in E. set (next := N.max _ _) in E. set (send_entries := ((next <=? _) && _)%bool) in E.
  match type of E with (if ?b then _ else _) = _ => destruct b; [injection E as <-; now apply fg_refl|] end.
  match type of E with (if ?b then _ else _) = _ => destruct b; [injection E as <-; now apply fg_refl|] end.
  destruct (((if next - 1 =? 0 then 0 else term_at (n_log n) (next - 1)) =? 0) && negb (next - 1 =? 0))%bool eqn:Ep;
    [injection E as <-; now apply fg_refl|].
  set (es := if send_entries then _ else _) in E. set (f' := Repl _ _ _ _ _ _ _ _) in E.
  assert (Hn : 0 < next) by (unfold next; lia).
  assert (Hprev : next - 1 = 0 \/ at_idx (n_log n) (next - 1) <> None).
  { destruct (next - 1 =? 0) eqn:E0; [left; lia|right]. cbn [negb] in Ep. rewrite andb_true_r in Ep.
    unfold term_at in Ep. destruct (at_idx (n_log n) (next - 1)); [discriminate|cbn in Ep; discriminate]. }
  assert (Hle : next - 1 <= llen A).
  { destruct Hprev as [->|H]; [lia|]. destruct (at_idx (n_log n) (next - 1)) as [e|] eqn:Ea; [|congruence].
    apply (st_at_some _ _ _ _ _ (ri_st _ _ HR)) in Ea. apply nth_entry_len in Ea. lia. }
  assert (Hes : exists rest, skipn (N.to_nat (next - 1)) A = es ++ rest).
  { unfold es. destruct send_entries; [|eexists; reflexivity].
    destruct (entries_from_spec (n_log n) (n_applied n) A next (ri_st _ _ HR) Hn) as [r1 ->].
    destruct (take_chunk_prefix (c_chunk (n_cfg n)) 0 (entries_from (n_log n) next)) as [r2 Hr2].
    exists (r2 ++ r1). rewrite Hr2 at 1. now rewrite <- app_assoc. }
  destruct Hes as [rest Hes].
  set (n1 := set_role (Leader (put peer f' fs) hb rel) n) in E.
  assert (F : fg n A n1 A).
  { apply fg_role; [assumption|]. eapply role_ok_followers; [exact Hro|apply sorted_put, Hro|].
    intros k v Hin. destruct (in_put _ _ _ _ _ Hin) as [[-> ->]|H].
    - apply lookup_in in El. split; [apply (proj2 (proj2 (proj2 Hro)) _ _ El)|]. right; exists f; auto.
    - split; [apply (proj2 (proj2 (proj2 Hro)) _ _ H)|]. right; exists v; auto. }
  eapply fg_trans; [exact F|]. eapply fg_reply; [apply (fg_RI _ _ _ _ F)| |exact E].
  exact (HMPapp n1 A peer (next - 1) es rest (fg_RI _ _ _ _ F) eq_refl Hle Hprev Hes).
Qed.

Lemma send_all_fg n A n' : RI n A -> send_all n = Ret n' -> fg n A n' A.
Proof.
  intros HR E. unfold send_all in E.
  set (me := n_me n) in E. set (l := m_all (mship n)) in E. clearbody l me.
  assert (Hc : forall l, fold_left (fun o p => let* m := o in if beq p me then Ret m else append_entries p m) l Crash = Crash)
    by (induction l0; cbn; auto).
  assert (Hf : forall l n, RI n A -> fold_left (fun o p => let* m := o in if beq p me then Ret m else append_entries p m) l (Ret n) = Ret n' -> fg n A n' A);
    [|now apply (Hf l n)].
  clear E l HR n. induction l as [|p l IH]; intros n HR E; cbn [fold_left bind] in E; [injection E as <-; now apply fg_refl|].
  destruct (beq p me); [now apply IH|].
  destruct (append_entries p n) as [n1|] eqn:E1; [|rewrite Hc in E; discriminate].
  pose proof (append_entries_fg _ _ _ _ HR E1) as F. eapply fg_trans; [exact F|]. apply IH; [apply (fg_RI _ _ _ _ F)|exact E].
Qed.

Lemma try_relinquish_fg rnd n A n' : RI n A -> try_relinquish rnd n = Ret n' -> fg n A n' A.
Proof.
  intros HR E. unfold try_relinquish in E.
  destruct (n_role n) as [| |fs hb rel] eqn:Er; try (injection E as <-; now apply fg_refl).
  destruct (find _ _) as [nx|]; [|injection E as <-; now apply fg_refl].
  binv E. injection E as <-. assert (F : fg n A a A).
  { eapply fg_reply; [exact HR| |exact E0]. apply HMPquiet; auto. }
  eapply fg_trans; [exact F|]. apply fg_role; [apply (fg_RI _ _ _ _ F)|exact I].
Qed.

Lemma change_state_fg ok rnd n A n' : RI n A -> change_state sz hmac ok rnd n = Ret n' ->
  exists A', fg n A n' A' /\ (A' = A \/ A' = A ++ [own_entry A (n_term n) INone]).
Proof.
  intros HR E. unfold change_state in E. binv E. rename a into n1.
  destruct (maybe_become_leader_fine n A n1 HR E0) as [A' [F1 [G1 HA]]].
  binv E. rename a into n2.
  assert (F2 : fg n1 A' n2 A').
  { destruct ok; [destruct (advance_commit_fine n1 A' n2 (fine_RI _ _ _ _ F1) E1); split; assumption|].
    injection E1 as <-. apply fg_refl, F1. }
  binv E. rename a into n3. pose proof (send_all_fg n2 A' n3 (fg_RI _ _ _ _ F2) E2) as F3.
  assert (F4 : fg n3 A' n' A').
  { pose proof (fg_RI _ _ _ _ F3) as R3. destruct (n_role n3) as [| |fs hb [|]] eqn:Er; try (injection E as <-; now apply fg_refl).
    eapply try_relinquish_fg; eassumption. }
  exists A'. split; [|exact HA]. eapply fg_trans; [split; eassumption|]. eapply fg_trans; [exact F2|]. eapply fg_trans; eassumption.
Qed.

(* --- elections ------------------------------------------------------------ *)
Lemma election_timeout_fine rnd n A n' : RI n A -> n_out n = [] -> election_timeout rnd n = Ret n' -> fine n A n' A.
Proof.
  intros HR Ho E. unfold election_timeout in E. destruct (voting n) eqn:Ev0; cbn [negb] in E.
  - assert (Hno : Ret n = Ret n' -> fine n A n' A) by (intros H; injection H as <-; now apply fine_refl).
    set (n1 := set_role _ _) in E.
    assert (F : fine n A n1 A).
    { pose proof (HWme n (n_term n + 1) (ri_id _ _ HR) (ri_ms _ _ HR) Ev0) as Hw. destruct HR; split; constructor; auto;
        unfold n1; cbn [set_role set_voted set_term n_term n_out n_role n_voted n_me n_commit n_promise n_applied]; try lia; try apply prefix_upto.
      - eapply HCm; [exact ri_cm0|lia|apply prefix_refl|apply prefix_upto].
      - split; [cbn; split; [intros q []|exact I]|]. split; [reflexivity|]. split; [now left|]. intros k [<-|[]]. split; [now apply pmem_In in Ev0|exact Hw].
      - rewrite Ho. constructor. }
    destruct (n_role n) eqn:Er; try (apply Hno; exact E).
    + binv E. cbn in E0. injection E0 as <-. eapply fine_trans; [exact F|]. eapply add_msg_fine; [apply F| |exact E]. apply HMPquiet; [apply F|reflexivity].
    + binv E. cbn in E0. injection E0 as <-. eapply fine_trans; [exact F|]. eapply add_msg_fine; [apply F| |exact E]. apply HMPquiet; [apply F|reflexivity].
  - injection E as <-. destruct (n_role n) eqn:Er; try now apply fine_refl. now apply fine_role.
Qed.

Lemma timer_tick_fine ok rnd n A n' : RI n A -> n_out n = [] -> timer_tick sz hmac ok rnd n = Ret n' -> exists A', fine n A n' A' /\
  (A' = A \/ exists t, A' = A ++ [own_entry A t INone]).
Proof.
  intros HR Ho E. unfold timer_tick in E. binv E. rename a into n1.
  assert (F : fine n A n1 A).
  { pose proof (ri_ro _ _ HR) as Hro. destruct (n_role n) as [l e|v e|fs hb rel] eqn:Er.
    - assert (F : fine n A (set_role (Follower l (e - 1)) n) A) by now apply fine_role.
      destruct (_ <=? 0)%Z; [|injection E0 as <-; exact F].
      eapply fine_trans; [exact F|]. eapply election_timeout_fine; [apply F|exact Ho|exact E0].
    - assert (F : fine n A (set_role (Candidate v (e - 1)) n) A) by now apply fine_role.
      destruct (_ <=? 0)%Z; [|injection E0 as <-; exact F].
      eapply fine_trans; [exact F|]. eapply election_timeout_fine; [apply F|exact Ho|exact E0].
    - set (fs1 := map_followers _ fs) in E0.
      assert (H1 : sorted fs1) by (apply map_followers_sorted, Hro).
      assert (H2 : forall k f, In (k, f) fs1 -> k <> n_me n /\ exists g, In (k, g) fs /\ f_match f = f_match g /\ f_promise f = f_promise g).
      { intros k f Hin. destruct (map_followers_in _ _ _ _ Hin) as [w [Hw ->]].
        split; [apply (proj2 (proj2 (proj2 Hro)) _ _ Hw)|]. exists w. destruct (_ =? invalid_ticks)%Z; auto. }
      destruct (_ <=? 0)%Z; injection E0 as <-.
      + apply fine_role; [assumption|]. eapply role_ok_followers; [exact Hro|now apply map_followers_sorted|].
        intros k f Hin. destruct (map_followers_in _ _ _ _ Hin) as [w [Hw ->]]. destruct (H2 _ _ Hw) as [? ?]. auto.
      + apply fine_role; [assumption|]. eapply role_ok_followers; [exact Hro|assumption|].
        intros k f Hin. destruct (H2 _ _ Hin); auto. }
  destruct (change_state_fg ok rnd n1 A n' (fine_RI _ _ _ _ F) E) as [A' [[F2 _] HA]].
  exists A'. split; [eapply fine_trans; eassumption|]. destruct HA; eauto.
Qed.

Lemma reset_peer_fg id n A n' : RI n A -> reset_peer id n = Ret n' -> fg n A n' A.
Proof.
  intros HR E. unfold reset_peer in E. destruct (negb _); [injection E as <-; now apply fg_refl|].
  pose proof (ri_ro _ _ HR) as Hro.
  destruct (n_role n) as [|v e|fs hb rel] eqn:Er; [injection E as <-; now apply fg_refl| |].
  - binv E. unfold vote_request in E0. rewrite Er in E0. injection E0 as <-. eapply fg_reply; [exact HR| |exact E]. apply HMPquiet; [assumption|apply Hro].
  - destruct (lookup id fs) as [f|] eqn:El; [|injection E as <-; now apply fg_refl]. injection E as <-.
    apply fg_role; [assumption|]. eapply role_ok_followers; [exact Hro|apply sorted_put, Hro|].
    intros k v Hin. destruct (in_put _ _ _ _ _ Hin) as [[-> ->]|H].
    + apply lookup_in in El. split; [apply (proj2 (proj2 (proj2 Hro)) _ _ El)|]. right; exists f; auto.
    + split; [apply (proj2 (proj2 (proj2 Hro)) _ _ H)|]. right; exists v; auto.
Qed.

Lemma reconfigure_fg c n A : RI n A -> fg n A (reconfigure c n) A.
Proof.
  intros HR. unfold reconfigure. pose proof (fine_cfg n A c HR) as F.
  eapply fg_trans; [split; [exact F|apply grow_same; reflexivity]|].
  apply fg_role; [apply F|]. pose proof (ri_ro _ _ HR) as Hro. destruct (n_role n); auto.
Qed.

Lemma relinquish_fg ok rnd n A n' : RI n A -> relinquish sz hmac ok rnd n = Ret n' ->
  exists A', fg n A n' A'.
Proof.
  intros HR E. unfold relinquish in E.
  destruct (n_role n) as [| |fs hb [|]] eqn:Er; try (injection E as <-; exists A; now apply fg_refl).
  binv E. destruct a as [n1 [l1 er1]].
  destruct (client_request_fine n A INone n1 l1 er1 HR) with (3 := E0) as [A1 [F1 [G1 [Q1 _]]]].
  { intros _. apply HKnone; [apply (ri_k _ _ HR)|reflexivity]. }
  { discriminate. }
  destruct (n_role n1) as [| |fs1 hb1 rel1] eqn:Er1; try discriminate.
  assert (F2 : fg n1 A1 (set_role (Leader fs1 hb1 true) n1) A1).
  { apply fg_role; [apply F1|]. pose proof (ri_ro _ _ (fine_RI _ _ _ _ F1)) as H. rewrite Er1 in H. exact H. }
  destruct (change_state_fg ok rnd _ A1 n' (fg_RI _ _ _ _ F2) E) as [A2 [F3 _]].
  exists A2. eapply fg_trans; [split; eassumption|]. eapply fg_trans; eassumption.
Qed.

Lemma log_request_fg ok rnd x n A n' l er : RI n A ->
  (forall A1, is_leader n = true -> K A1 -> (forall g, x = IMember g -> A1 = A /\ n_unc n = [] /\ exists m, from_proto g = (m, M_OK) /\
      valid_progression (n_me n) (n_mem n) m (n_sm n) = M_OK) ->
     K (A1 ++ [own_entry A1 (n_term n) x])) ->
  log_request sz hmac ok rnd x n = Ret (n', (l, er)) -> exists A', fg n A n' A' /\
  (er = RE_OK -> is_leader n = true /\ lc_term l = n_term n /\ lc_idx l = llen A + 1 /\
     nth_entry A' (lc_idx l) = Some (Entry (lc_term l) x (lc_hash l))).
Proof.
  intros HR HK E. unfold log_request in E. set (refused := match x with IMember _ => _ | _ => _ end) in E.
  destruct refused eqn:Ef; try (injection E as <- _ <-; exists A; split; [now apply fg_refl|discriminate]).
  binv E. destruct a as [n1 [l1 er1]]. binv E. injection E as <- <- <-.
  destruct (client_request_fine n A x n1 l1 er1 HR) with (3 := E0) as [A1 [F1 [G1 [Q1 HA1]]]].
  { intros Hl. apply HK; [exact Hl|apply (ri_k _ _ HR)|]. intros g ->. split; [reflexivity|]. unfold refused in Ef. clear -Ef.
    destruct (n_role n) as [| |fs hb [|]]; try discriminate. destruct (n_unc n); [|discriminate]. split; [reflexivity|].
    destruct (from_proto g) as [m []]; try discriminate. exists m. split; [reflexivity|].
    destruct (valid_progression _ _ _ _); congruence. }
  { intros g m -> Em _. unfold refused in Ef. clear -Ef Em.
    destruct (n_role n) as [| |fs hb [|]]; try discriminate. destruct (n_unc n); [|discriminate].
    rewrite Em in Ef. destruct (valid_progression _ _ _ _) eqn:Ev; try discriminate. unfold valid_progression in Ev.
    repeat match type of Ev with (if ?b then _ else _) = _ => destruct b eqn:?; try discriminate end.
    apply pmem_In. match goal with H : negb (pmem (n_me n) (m_voting m)) = false |- _ => now destruct (pmem (n_me n) (m_voting m)) end. }
  destruct (change_state_fg ok rnd _ A1 a (fine_RI _ _ _ _ F1) E1) as [A2 [F3 _]].
  exists A2. split; [eapply fg_trans; [split; eassumption|]; eassumption|].
  intros ->. destruct HA1 as [[_ [Hl [-> ->]]]|[H _]]; [|congruence].
  split; [assumption|]. cbn [lc_term lc_idx lc_hash]. do 2 (split; [reflexivity|]).
  destruct F3 as [_ [_ _ _ _ _ [c ->]]]. rewrite <- app_assoc. cbn [app].
  unfold nth_entry. destruct (_ =? 0) eqn:Ez; [lia|]. rewrite nth_error_app2 by (unfold llen; lia).
  replace (N.to_nat (llen A + 1 - 1) - length A)%nat with 0%nat by (unfold llen; lia). reflexivity.
Qed.
(* --- receiving ------------------------------------------------------------ *)
Lemma update_term_fine rnd t n A : RI n A -> n_out n = [] -> fine n A (update_term rnd t n) A.
Proof.
  intros HR Ho. unfold update_term. destruct (t <=? n_term n) eqn:E; [now apply fine_refl|].
  destruct HR; split; constructor; auto;
    cbn [set_role set_voted set_term n_term n_out n_role n_voted n_me n_commit n_promise n_applied]; try lia; try apply prefix_upto.
  - eapply HCm; [exact ri_cm0|lia|apply prefix_refl|apply prefix_upto].
  - exact I.
  - rewrite Ho. constructor.
Qed.
Lemma update_term_same rnd t n : n_log (update_term rnd t n) = n_log n /\ n_out (update_term rnd t n) = n_out n /\
  mship (update_term rnd t n) = mship n /\ n_me (update_term rnd t n) = n_me n /\ n_promise (update_term rnd t n) = n_promise n /\
  n_commit (update_term rnd t n) = n_commit n.
Proof. unfold update_term. destruct (_ <=? _); repeat split. Qed.
Lemma seen_now_fg from n A : RI n A -> fg n A (seen_now from n) A.
Proof.
  intros HR. unfold seen_now. destruct (n_role n) as [| |fs hb rel] eqn:Er; try now apply fg_refl.
  destruct (lookup from fs) as [f|] eqn:El; [|now apply fg_refl].
  pose proof (ri_ro _ _ HR) as Hro. rewrite Er in Hro.
  apply fg_role; [assumption|]. eapply role_ok_followers; [exact Hro|apply sorted_put, Hro|].
  intros k v Hin. destruct (in_put _ _ _ _ _ Hin) as [[-> ->]|H].
  - apply lookup_in in El. split; [apply (proj2 (proj2 (proj2 Hro)) _ _ El)|]. right; exists f; auto.
  - split; [apply (proj2 (proj2 (proj2 Hro)) _ _ H)|]. right; exists v; auto.
Qed.
Lemma seen_now_same from n : n_log (seen_now from n) = n_log n /\ n_out (seen_now from n) = n_out n /\
  mship (seen_now from n) = mship n /\ n_me (seen_now from n) = n_me n /\ n_term (seen_now from n) = n_term n /\
  n_promise (seen_now from n) = n_promise n /\ n_commit (seen_now from n) = n_commit n.
Proof. unfold seen_now. destruct (n_role n); [| |destruct (lookup _ _)]; repeat split. Qed.

Lemma handle_vote_request_fine rnd t lidx lterm from n A n' : RI n A -> n_out n = [] ->
  (t = n_term n -> up_to_date (n_log n) lidx lterm -> Vr from t) ->
  handle_vote_request rnd t lidx lterm from n = Ret n' -> fine n A n' A.
Proof.
  intros HR Ho HV E. unfold handle_vote_request in E. destruct (n_term n <? t) eqn:Et; [injection E as <-; now apply fine_refl|].
  set (log_ok := (_ || _)%bool) in E.
  destruct ((t =? n_term n) && log_ok && match n_voted n with None => true | Some v => beq v from end)%bool eqn:Eg.
  - apply andb_prop in Eg as [Eg Ev1]. apply andb_prop in Eg as [Eg Elo].
    set (r := match n_role n with Follower l _ => Follower l rnd | r => r end) in E.
    set (n1 := set_role r (set_voted (Some from) n)) in E.
    assert (F : fine n A n1 A).
    { pose proof (ri_ro _ _ HR) as Hro.
      assert (Hr : role_ok n1 A (n_role n1)).
      { unfold n1, r. cbn [set_role set_voted n_role]. destruct (n_role n) as [l e|v e|fs hb rel] eqn:Er; [exact I| |].
        - destruct Hro as [R1 [R2 [R4 R3]]]. rewrite R2 in Ev1. apply beq_eq in Ev1. subst from. do 2 (split; [assumption||reflexivity|]). split; [assumption|exact R3].
        - destruct Hro as [R1 [R2 [R3 R4]]]. rewrite R3 in Ev1. apply beq_eq in Ev1. subst from. split; [assumption|]. split; [assumption|]. split; [reflexivity|]. exact R4. }
      destruct HR; split; constructor; auto; unfold n1;
        cbn [set_role set_voted set_term n_term n_out n_role n_voted n_me n_commit n_promise n_applied]; try lia; try apply prefix_upto.
      - rewrite Ho; constructor.
      - intros _. destruct (n_voted n); [right; apply beq_eq in Ev1; congruence|auto]. }
    eapply fine_trans; [exact F|]. eapply reply_fine; [apply F| |exact E].
    apply HMPgrant; [apply F|reflexivity|]. replace (n_term n1) with t by (unfold n1; cbn; lia). apply HV; [lia|].
    unfold log_ok, up_to_date in *. apply orb_prop in Elo as [H|H]; [left; lia|right]. apply andb_prop in H as [? ?]. lia.
  - eapply reply_fine; [exact HR| |exact E]. now apply HMPquiet.
Qed.

Lemma handle_vote_response_fg t g from n A : RI n A ->
  (g = true -> t = n_term n -> In from (m_voting (mship n)) -> W (n_me n) t from) ->
  fg n A (handle_vote_response t g from n) A.
Proof.
  intros HR HV. unfold handle_vote_response. destruct (t =? n_term n) eqn:Et; cbn [negb]; [|now apply fg_refl].
  destruct (n_role n) as [|v e|] eqn:Er; try now apply fg_refl.
  destruct (g && _)%bool eqn:Eg; [|now apply fg_refl]. apply andb_prop in Eg as [-> Eg].
  pose proof (ri_ro _ _ HR) as Hro. rewrite Er in Hro. destruct Hro as [R1 [R2 [R4 R3]]].
  apply fg_role; [assumption|]. split; [now apply pins_sorted|]. split; [assumption|]. split; [apply pins_In; auto|].
  intros k Hk. apply pins_In in Hk as [->|Hk]; [|auto]. split; [now apply pmem_In|]. replace (n_term n) with t by lia. apply HV; [reflexivity|lia|now apply pmem_In].
Qed.

Lemma fine_cancel n A idx l r la el : RI n A -> n_role n = Follower la el -> n_out n = [] -> 0 < idx -> idx <= llen A ->
  n_commit n < idx -> n_promise n < idx -> cancel_from idx (n_log n) = (l, r) ->
  r = L_OK /\ fine n A (refresh_members (set_log l n)) (upto (idx - 1) A).
Proof.
  intros HR Hf Ho H0 H1 Hc Hp E. pose proof (ri_ac _ _ HR) as Hac.
  destruct (cancel_stored idx (n_log n) (n_applied n) A l r (ri_st _ _ HR) H0 H1 ltac:(lia) E) as [-> Hst].
  split; [reflexivity|].
  assert (Hlen : llen (upto (idx - 1) A) = idx - 1) by (apply upto_len; lia).
  assert (HK' : K (upto (idx - 1) A)) by (eapply HKcut; [apply (ri_k _ _ HR)|apply (ri_cm _ _ HR)|lia]).
  assert (Hlast : last_idx l = idx - 1) by (rewrite (st_last l (n_applied n) (upto (idx - 1) A)); [assumption|assumption|lia]).
  assert (Hm : forall m u, MS m u -> dsc (idx - 1) (rev u) -> fine n A (set_members m u (set_log l n)) (upto (idx - 1) A)).
  { intros m u Hms Hd. destruct HR; split; constructor; auto;
      cbn [set_members set_log n_log n_applied n_commit n_promise n_term n_voted n_role n_me n_out n_mem n_unc n_group n_sm]; try lia.
    - now apply chained_upto.
    - rewrite upto_upto by lia. eapply HCm; [exact ri_cm0|lia|apply prefix_refl|]. apply upto_le; lia.
    - rewrite Hf. exact I.
    - rewrite Ho; constructor.
    - rewrite Hlen. exact Hd.
    - apply upto_le; lia. }
  unfold refresh_members. cbn [set_log n_log n_commit n_mem n_unc]. rewrite Hlast.
  pose proof (pop_committed_in (n_commit n) (n_mem n) (n_unc n)) as Hpi. pose proof (pop_committed_last (n_commit n) (n_mem n) (n_unc n)) as Hpl.
  destruct (pop_committed _ _ _) as [m u]. destruct Hpi as [P1 P2]. destruct Hpl as [P3 [v P4]].
  set (u' := rev (pop_cancelled (idx - 1) (rev u))).
  assert (Hi : incl u' u).
  { intros x Hx. unfold u' in Hx. apply in_rev in Hx. apply pop_cancelled_incl in Hx. now apply in_rev. }
  assert (Hd : dsc (idx - 1) (rev u')).
  { unfold u'. rewrite rev_involutive. eapply pop_cancelled_dsc. pose proof (ri_un _ _ HR) as X.
    rewrite P4, rev_app_distr in X. apply dsc_app in X. exact X. }
  destruct (Nat.eqb (length u') (length (n_unc n))) eqn:Eq.
  - apply Nat.eqb_eq in Eq.
    assert (Hlv : (length u' <= length u)%nat).
    { unfold u'. rewrite rev_length, <- (rev_length u). clear. induction (rev u) as [|[i x] w IH]; cbn [pop_cancelled]; [auto|].
      destruct (_ <? _); cbn [length]; lia. }
    assert (v = []) by (destruct v; [reflexivity|]; rewrite P4, app_length in Eq; cbn in Eq; lia). subst v. cbn [app] in P4. subst u.
    assert (Hu : pop_cancelled (idx - 1) (rev (n_unc n)) = rev (n_unc n)).
    { unfold u' in Eq. rewrite rev_length, <- (rev_length (n_unc n)) in Eq. revert Eq. clear.
      destruct (rev (n_unc n)) as [|[i x] w]; cbn [pop_cancelled]; [auto|]. destruct (_ <? _); [|auto]. intros Eq. exfalso.
      assert (H : (length (pop_cancelled (idx - 1) w) <= length w)%nat).
      { clear. induction w as [|[i x] w IH]; cbn [pop_cancelled]; [auto|]. destruct (_ <? _); cbn [length]; lia. }
      cbn [length] in Eq. lia. }
    unfold u' in Hd. rewrite Hu, rev_involutive in Hd.
    replace (set_log l n) with (set_members (n_mem n) (n_unc n) (set_log l n)) by (destruct n; reflexivity).
    apply Hm; [apply (ri_ms _ _ HR)|exact Hd].
  - assert (F : fine n A (set_members m u' (set_log l n)) (upto (idx - 1) A)).
    { apply Hm; [|exact Hd]. eapply HMSsub; [apply (ri_ms _ _ HR)|exact P1|]. eapply incl_tran; eassumption. }
    eapply fine_trans; [exact F|]. apply hmc_fine, F.
Qed.

(* the entries of an append request are those of B from index prev+1 on *)
Definition tracks (n : node) (A : list entry) (prev : N) (es B : list entry) : Prop :=
  upto prev A = upto prev B /\ prev <= llen B /\ (exists rest, skipn (N.to_nat prev) B = es ++ rest) /\
  (forall j, (j < length es)%nat -> prev + 1 + N.of_nat j <= llen A ->
     exists a, at_idx (n_log n) (prev + 1 + N.of_nat j) = Some a) /\
  (forall j e a, nth_error es j = Some e -> at_idx (n_log n) (prev + 1 + N.of_nat j) = Some a -> e_term a = e_term e ->
     upto (prev + 1 + N.of_nat j) A = upto (prev + 1 + N.of_nat j) B).

Lemma skipn_step {T} i (B : list T) e es rest : skipn (N.to_nat i) B = (e :: es) ++ rest ->
  nth_entry B (i + 1) = Some e /\ skipn (N.to_nat (i + 1)) B = es ++ rest /\ i + 1 <= llen B.
Proof.
  intros H. replace (N.to_nat (i + 1)) with (S (N.to_nat i)) by lia.
  assert (Hn : nth_error B (N.to_nat i) = Some e) by (rewrite <- (Nat.add_0_r (N.to_nat i)), <- nth_error_skipn, H; reflexivity).
  split; [unfold nth_entry; destruct (_ =? 0) eqn:E0; [lia|]; now replace (N.to_nat (i + 1 - 1)) with (N.to_nat i) by lia|].
  split; [|apply nth_entry_len with (e := e); unfold nth_entry; destruct (_ =? 0) eqn:E0; [lia|]; now replace (N.to_nat (i + 1 - 1)) with (N.to_nat i) by lia].
  clear Hn. revert B H; generalize (N.to_nat i); clear. induction n as [|n IH]; intros B H; [cbn in H; subst B; reflexivity|].
  destruct B as [|b B]; [discriminate|]. cbn [skipn] in *. exact (IH B H).
Qed.

Lemma tracks_next n A prev e es B n1 A1 : tracks n A prev (e :: es) B ->
  (n1 = n /\ A1 = A /\ prev + 1 <= llen A /\ term_at (n_log n) (prev + 1) = e_term e \/
   A1 = upto prev A ++ [e] /\ prev <= llen A /\ RI n1 A1) ->
  tracks n1 A1 (prev + 1) es B.
Proof.
  intros [T1 [T2 [[rest T3] [T4 T5]]]] Hc. destruct (skipn_step _ _ _ _ _ T3) as [Hn [Hs Hle]].
  assert (HB : upto (prev + 1) B = upto prev B ++ [e]) by now apply upto_succ.
  destruct Hc as [[-> [-> [Hl Ht]]]|[-> [Hl HR1]]].
  - split; [|split; [assumption|split; [eauto|split]]].
    + destruct (T4 0%nat) as [a Ha]; [cbn; lia|cbn; lia|]. cbn in Ha. rewrite N.add_0_r in Ha.
      specialize (T5 0%nat e a eq_refl). cbn in T5. rewrite N.add_0_r in T5. apply T5; [assumption|].
      unfold term_at in Ht. rewrite Ha in Ht. exact Ht.
    + intros j Hj Hl2. destruct (T4 (S j)) as [a Ha]; [cbn; lia|lia|]. exists a. rewrite <- Ha. f_equal; lia.
    + intros j e' a He Ha Et. specialize (T5 (S j) e' a He).
      replace (prev + 1 + N.of_nat (S j)) with (prev + 1 + 1 + N.of_nat j) in T5 by lia. auto.
  - assert (Hl2 : llen (upto prev A ++ [e]) = prev + 1) by (rewrite llen_app, upto_len by assumption; reflexivity).
    split; [|split; [assumption|split; [eauto|split]]].
    + rewrite HB, <- T1. rewrite upto_all by lia. reflexivity.
    + intros j Hj H. lia.
    + intros j e' a He Ha. apply (st_at_some _ _ _ _ _ (ri_st _ _ HR1)), nth_entry_len in Ha. lia.
Qed.
Lemma process_entries_fine es : forall idx n A n' p,
  RI n A -> (exists la el, n_role n = Follower la el) -> n_out n = [] -> 0 < idx -> idx - 1 <= llen A ->
  (forall A2 j e, K A2 -> nth_error es j = Some e -> llen A2 + 1 = idx + N.of_nat j -> K (A2 ++ [e])) ->
  process_entries sz hmac es idx (idx - 1) n = Ret (n', p) ->
  exists A', fine n A n' A' /\ quiet n n' /\ p <= llen A' /\ idx - 1 <= p /\
    (forall B, tracks n A (idx - 1) es B -> upto p A' = upto p B /\ p <= idx - 1 + llen es).
Proof.
  induction es as [|e es IH]; intros idx n A n' p HR Hl Ho H0 Hle HK E; cbn [process_entries] in E.
  { injection E as <- <-. exists A. split; [now apply fine_refl|]. split; [apply quiet_refl|]. split; [assumption|].
    split; [lia|]. intros B [T _]. split; [exact T|]. unfold llen; cbn; lia. }
  set (ours := term_at (n_log n) idx) in E.
  set (conflict := (negb (ours =? 0) && negb (ours =? e_term e))%bool) in E.
  assert (Hstop : exists A', fine n A n A' /\ quiet n n /\ idx - 1 <= llen A' /\ idx - 1 <= idx - 1 /\
    (forall B, tracks n A (idx - 1) (e :: es) B -> upto (idx - 1) A' = upto (idx - 1) B /\ idx - 1 <= idx - 1 + llen (e :: es))).
  { exists A. split; [now apply fine_refl|]. split; [apply quiet_refl|]. split; [assumption|]. split; [lia|].
    intros B [T _]. split; [exact T|lia]. }
  destruct (conflict && _)%bool eqn:Eb; [injection E as <- <-; exact Hstop|].
  set (cancelled := if conflict then _ else _) in E.
  (* where the loop body appends *)
  assert (Happ : forall n1 A1, fine n A n1 A1 -> quiet n n1 -> A1 = upto (idx - 1) A ->
     (if idx =? last_idx (n_log n1) + 1
      then if negb (beq (next_hash hmac (n_log n1) (e_term e) (e_inner e)) (e_hash e)) then Ret (n1, idx - 1)
           else let* '(n2, (_, er)) := log_append sz e n1 in
                match er with RE_OK => process_entries sz hmac es (idx + 1) idx n2 | _ => Ret (n2, idx - 1) end
      else process_entries sz hmac es (idx + 1) idx n1) = Ret (n', p) ->
     exists A', fine n A n' A' /\ quiet n n' /\ p <= llen A' /\ idx - 1 <= p /\
       (forall B, tracks n A (idx - 1) (e :: es) B -> upto p A' = upto p B /\ p <= idx - 1 + llen (e :: es))).
  { intros n1 A1 F1 Q1 HA1 E1. pose proof (fine_RI _ _ _ _ F1) as R1.
    assert (Hl1 : llen A1 = idx - 1) by (subst A1; now apply upto_len).
    rewrite (RI_last _ _ R1), Hl1 in E1. destruct (idx =? idx - 1 + 1) eqn:Ei; [|lia].
    destruct (beq _ _) eqn:Eh; cbn [negb] in E1.
    2:{ injection E1 as <- <-. exists A1. split; [assumption|]. split; [assumption|]. split; [lia|]. split; [lia|].
        intros B [T _]. split; [|lia]. subst A1. rewrite upto_upto by lia. exact T. }
    apply beq_eq in Eh. rewrite (next_hash_tip n1 A1 (e_inner e) (e_term e) R1) in Eh.
    binv E1. destruct a as [n2 [l2 er]].
    assert (HKe : K (A1 ++ [e])).
    { apply (HK A1 0%nat e); [apply (ri_k _ _ R1)|reflexivity|cbn; lia]. }
    assert (Hf1 : exists la el, n_role n1 = Follower la el).
    { destruct Hl as [la [el Hf]]. exists la, el. destruct Q1. rewrite q_role0; [assumption|]. unfold is_leader; now rewrite Hf. }
    destruct (log_append_fine n1 A1 e n2 l2 er R1 (eq_sym Eh) HKe ltac:(intros; destruct Hf1 as [? [? ->]]; exact I) E0) as [A2 [F2 [G2 [Q2 HA2]]]].
    assert (F02 : fine n A n2 A2) by (eapply fine_trans; eassumption).
    assert (Q02 : quiet n n2) by (eapply quiet_trans; eassumption).
    destruct HA2 as [[-> [HA2 _]]|[Her HA2]].
    - assert (Hl2 : llen A2 = idx) by (subst A2; rewrite llen_app, Hl1; unfold llen; cbn; lia).
      assert (E1' : process_entries sz hmac es (idx + 1) (idx + 1 - 1) n2 = Ret (n', p)) by (replace (idx + 1 - 1) with idx by lia; exact E1).
      assert (Hf2 : exists la el, n_role n2 = Follower la el).
      { destruct Hl as [la [el Hf]]. exists la, el. destruct Q02. rewrite q_role0; [assumption|]. unfold is_leader; now rewrite Hf. }
      assert (Q := Q02). destruct Q.
      destruct (IH (idx + 1) n2 A2 n' p (fine_RI _ _ _ _ F02) Hf2 ltac:(congruence) ltac:(lia) ltac:(lia)) with (2 := E1')
        as [A' [F3 [Q3 [P1 [P2 P3]]]]].
      { intros A3 j e' HK3 Hj Hlen. apply (HK A3 (S j) e'); [assumption|exact Hj|lia]. }
      exists A'. split; [eapply fine_trans; eassumption|]. split; [eapply quiet_trans; eassumption|]. split; [assumption|]. split; [lia|].
      intros B T. assert (T' : tracks n2 A2 (idx + 1 - 1) es B).
      { replace (idx + 1 - 1) with (idx - 1 + 1) by lia. eapply tracks_next; [exact T|]. right. subst A2 A1.
        split; [reflexivity|]. split; [lia|apply F02]. }
      destruct (P3 B T') as [? ?]. split; [assumption|]. unfold llen in *; cbn [length]; lia.
    - subst A2. assert (Er : n' = n2 /\ p = idx - 1) by (destruct er; try congruence; injection E1 as <- <-; auto).
      destruct Er as [-> ->]. exists A1. split; [assumption|]. split; [assumption|]. split; [lia|]. split; [lia|].
      intros B [T _]. split; [|lia]. subst A1. rewrite upto_upto by lia. exact T. }
  destruct conflict eqn:Ec.
  - (* conflict: the tail goes *)
    cbn [andb] in Eb. apply orb_false_elim in Eb as [Eb1 Eb2].
    assert (Hat : exists a, at_idx (n_log n) idx = Some a).
    { unfold conflict, ours, term_at in Ec. destruct (at_idx (n_log n) idx); [eauto|discriminate]. }
    destruct Hat as [a Hat]. apply (st_at_some _ _ _ _ _ (ri_st _ _ HR)), nth_entry_len in Hat.
    unfold cancelled in E. destruct (cancel_from idx (n_log n)) as [l r] eqn:Ecf.
    destruct Hl as [la [el Hf]].
    destruct (fine_cancel n A idx l r la el HR Hf Ho H0 ltac:(lia) ltac:(lia) ltac:(lia) Ecf) as [-> F].
    apply (Happ (refresh_members (set_log l n)) (upto (idx - 1) A)); [|..|exact E]; [|..|reflexivity].
    + exact F.
    + eapply quiet_trans; [|apply refresh_quiet]. constructor; auto.
  - unfold cancelled in E. destruct (idx =? last_idx (n_log n) + 1) eqn:Ei.
    + apply (Happ n A); [now apply fine_refl|apply quiet_refl| |rewrite Ei; exact E].
      rewrite (RI_last _ _ HR) in Ei. now rewrite upto_all by lia.
    + rewrite (RI_last _ _ HR) in Ei.
      assert (E1' : process_entries sz hmac es (idx + 1) (idx + 1 - 1) n = Ret (n', p)) by (replace (idx + 1 - 1) with idx by lia; exact E).
      destruct (IH (idx + 1) n A n' p HR Hl Ho ltac:(lia) ltac:(lia)) with (2 := E1') as [A' [F3 [Q3 [P1 [P2 P3]]]]].
      { intros A3 j e' HK3 Hj Hlen. apply (HK A3 (S j) e'); [assumption|exact Hj|lia]. }
      exists A'. split; [assumption|]. split; [assumption|]. split; [assumption|]. split; [lia|].
      intros B T. assert (T' : tracks n A (idx + 1 - 1) es B).
      { replace (idx + 1 - 1) with (idx - 1 + 1) by lia. eapply tracks_next; [exact T|]. left.
        do 2 (split; [reflexivity|]). split; [lia|]. replace (idx - 1 + 1) with idx by lia.
        destruct T as [_ [_ [_ [T4 _]]]]. destruct (T4 0%nat) as [a Ha]; [cbn; lia|cbn; lia|].
        replace (idx - 1 + 1 + N.of_nat 0) with idx in Ha by lia.
        assert (e_term a <> 0).
        { pose proof (st_at_some _ _ _ _ _ (ri_st _ _ HR) Ha) as Hn. unfold nth_entry in Hn. destruct (idx =? 0); [discriminate|].
          apply nth_error_In in Hn. apply (chained_hash_len hmac A a (ri_ch _ _ HR) Hn). }
        unfold conflict, ours, term_at in Ec. unfold term_at. rewrite Ha in *. destruct (e_term a =? 0) eqn:Ez; [lia|]. cbn [negb andb] in Ec.
        destruct (e_term a =? e_term e) eqn:Ee; [lia|discriminate]. }
      destruct (P3 B T') as [? ?]. split; [assumption|]. unfold llen in *; cbn [length]; lia.
Qed.

Lemma handle_append_request_fine ok rnd t prev pterm commit es promise from n A n' :
  RI n A -> n_out n = [] ->
  (forall A2 j e, K A2 -> nth_error es j = Some e -> llen A2 = prev + N.of_nat j -> K (A2 ++ [e])) ->
  (forall X A2 p, (forall B, tracks n A prev es B -> upto p A2 = upto p B /\ p <= prev + llen es) -> p <= llen A2 ->
     n_commit n < N.min commit p -> t = n_term n -> (prev = 0 \/ exists e, at_idx (n_log n) prev = Some e /\ e_term e = pterm) ->
     Cm t X A2 (N.min commit p)) ->
  handle_append_request sz hmac ok rnd t prev pterm commit es promise from n = Ret n' ->
  exists A', fine n A n' A'.
Proof.
  intros HR Ho HK HC E. unfold handle_append_request in E.
  destruct (n_term n <? t) eqn:Et1; [injection E as <-; exists A; now apply fine_refl|].
  destruct (t <? n_term n) eqn:Et2.
  { exists A. eapply reply_fine; [exact HR| |exact E]. now apply HMPquiet. }
  assert (Hlog_ok : forall r, (exists la el, n_role (set_role r n) = Follower la el) -> role_ok n A r ->
     (if negb ((prev =? 0) || match at_idx (n_log n) prev with Some e => pterm =? e_term e | None => false end)%bool
      then reply from (AppResp false (n_commit (set_role r n)) (last_idx (n_log (set_role r n))) (n_promise (set_role r n))
             (hash_at (n_log (set_role r n)) (n_commit (set_role r n)))) (set_role r n)
      else
        let* '(n1, processed) := process_entries sz hmac es (prev + 1) prev (set_role r n) in
        if (((n_commit n1 <? N.min commit processed) || (n_promise n1 <? N.min promise processed)) && negb ok)%bool then Ret n1 else
        let n2 := if n_promise n1 <? N.min promise processed then set_promise (N.min promise processed) n1 else n1 in
        let n3 := if n_commit n2 <? N.min commit processed then refresh_members (set_commit (N.min commit processed) n2) else n2 in
        reply from (AppResp true processed (last_idx (n_log n3)) (N.min (n_promise n3) processed) (hash_at (n_log n3) processed)) n3)
       = Ret n' -> exists A', fine n A n' A').
  { intros r Hlr Hr E'. pose proof (fine_role n A r HR Hr) as F0. set (n0 := set_role r n) in *.
    destruct ((prev =? 0) || _)%bool eqn:Eok; cbn [negb] in E'.
    2:{ exists A. eapply fine_trans; [exact F0|]. eapply reply_fine; [apply F0| |exact E']. apply HMPquiet; [apply F0|exact I]. }
    assert (Hprev : prev = 0 \/ exists e, at_idx (n_log n) prev = Some e /\ e_term e = pterm).
    { apply orb_prop in Eok as [H|H]; [left; lia|right]. destruct (at_idx (n_log n) prev) as [e|]; [|discriminate]. exists e; split; [reflexivity|lia]. }
    assert (Hple : prev <= llen A).
    { destruct Hprev as [->|[e [He _]]]; [lia|]. apply (st_at_some _ _ _ _ _ (ri_st _ _ HR)), nth_entry_len in He. lia. }
    binv E'. destruct a as [n1 p].
    assert (E1 : process_entries sz hmac es (prev + 1) (prev + 1 - 1) n0 = Ret (n1, p)) by (replace (prev + 1 - 1) with prev by lia; exact E0).
    destruct (process_entries_fine es (prev + 1) n0 A n1 p (fine_RI _ _ _ _ F0) Hlr Ho ltac:(lia) ltac:(lia)) with (2 := E1)
      as [A1 [F1 [Q1 [P1 [P2 P3]]]]].
    { intros A2 j e H1 H2 H3. apply (HK A2 j e H1 H2). lia. }
    assert (F01 : fine n A n1 A1) by (eapply fine_trans; eassumption).
    destruct (_ && _)%bool; [injection E' as <-; exists A1; exact F01|]. cbv zeta in E'.
    set (lp := N.min promise p) in *. set (lc := N.min commit p) in *.
    set (n2 := if n_promise n1 <? lp then set_promise lp n1 else n1) in *.
    assert (F2 : fine n1 A1 n2 A1).
    { unfold n2. destruct (n_promise n1 <? lp) eqn:Ep; [|apply fine_refl, F01].
      apply fine_promise; [apply F01|lia|unfold lp; lia]. }
    set (n3 := if n_commit n2 <? lc then refresh_members (set_commit lc n2) else n2) in *.
    assert (F3 : fine n2 A1 n3 A1).
    { unfold n3. destruct (n_commit n2 <? lc) eqn:Ep; [|apply fine_refl, F2].
      assert (Hc : Cm (n_term n2) (upto (n_promise n2) A1) A1 lc).
      { apply (HCm t (upto (n_promise n2) A1) A1); [|pose proof (ev_term _ _ _ _ (proj2 F01)); pose proof (ev_term _ _ _ _ (proj2 F2)); lia|apply prefix_refl|apply prefix_upto].
        apply HC; [|exact P1| |lia|exact Hprev]; [|pose proof (ev_commit _ _ _ _ (proj2 F01)); pose proof (ev_commit _ _ _ _ (proj2 F2)); unfold lc in Ep; lia]. intros B T. replace prev with (prev + 1 - 1) by lia. apply P3.
        replace (prev + 1 - 1) with prev by lia. exact T. }
      destruct (fine_commit n2 A1 lc (fine_RI _ _ _ _ F2) ltac:(lia) Hc) as [F3 _].
      eapply fine_trans; [exact F3|]. apply refresh_fine, F3. }
    exists A1. eapply fine_trans; [exact F01|]. eapply fine_trans; [exact F2|]. eapply fine_trans; [exact F3|].
    eapply reply_fine; [apply F3| |exact E']. apply HMPresp; [apply F3|exact P1]. }
  destruct (n_role n) eqn:Er.
  - apply (Hlog_ok (Follower (Some from) rnd)); [eexists _, _; reflexivity|exact I|exact E].
  - apply (Hlog_ok (Follower (Some from) rnd)); [eexists _, _; reflexivity|exact I|exact E].
  - injection E as <-. exists A; now apply fine_refl.
Qed.

Lemma handle_append_response_fg t s midx mlast mp mhash from n A n' : RI n A ->
  (s = true -> t = n_term n -> (exists f fs hb rel, n_role n = Leader fs hb rel /\ lookup from fs = Some f) ->
     match at_idx (n_log n) midx with Some e => mhash = e_hash e | None => midx <= llen A end -> G t A from mp) ->
  handle_append_response t s midx mlast mp mhash from n = Ret n' -> fg n A n' A.
Proof.
  intros HR HGm E. unfold handle_append_response in E. destruct (t =? n_term n) eqn:Et; cbn [negb] in E; [|injection E as <-; now apply fg_refl].
  pose proof (ri_ro _ _ HR) as Hro.
  destruct (n_role n) as [| |fs hb rel] eqn:Er; try (injection E as <-; now apply fg_refl).
  destruct (lookup from fs) as [f|] eqn:El; [|injection E as <-; now apply fg_refl].
  pose proof (lookup_in _ _ _ El) as Hin0. destruct Hro as [R1 [R2 [R3 R4]]].
  destruct s.
  - set (f' := Repl _ _ _ _ _ _ _ _) in E.
    destruct (match at_idx (n_log n) midx with Some e => beq mhash (e_hash e) | None => midx <=? last_idx (n_log n) end) eqn:Em; [|discriminate].
    injection E as <-. apply fg_role; [assumption|]. split; [now apply sorted_put|]. do 2 (split; [assumption|]).
    assert (Hmid : midx <= llen A).
    { destruct (at_idx (n_log n) midx) as [e|] eqn:Ea; [|rewrite (RI_last _ _ HR) in Em; lia].
      apply (st_at_some _ _ _ _ _ (ri_st _ _ HR)), nth_entry_len in Ea. lia. }
    assert (HGn : G (n_term n) A from mp).

    { replace (n_term n) with t by lia. apply HGm; [reflexivity|lia|eauto 8|].
      destruct (at_idx (n_log n) midx) as [e|] eqn:Ea; [now apply beq_eq in Em|exact Hmid]. }
    intros k v Hin. destruct (in_put _ _ _ _ _ Hin) as [[-> ->]|H]; [|apply (R4 k v H)].
    destruct (R4 _ _ Hin0) as [H1 [H2 H3]]. cbn [f' f_match f_promise]. split; [lia|]. split; [assumption|].
    destruct (N.max_dec (f_promise f) mp) as [->| ->]; assumption.
  - injection E as <-. apply fg_role; [assumption|]. apply (role_ok_followers n A fs hb rel); [split; [exact R1|split; [exact R2|split; [exact R3|exact R4]]]|now apply sorted_put|].
    intros k v Hin. destruct (in_put _ _ _ _ _ Hin) as [[-> ->]|H].
    + split; [apply (R4 _ _ Hin0)|]. right; exists f; auto.
    + split; [apply (R4 _ _ H)|]. right; exists v; auto.
Qed.

(* what the rest of the group must supply for a received message to be harmless *)
Definition msg_pre (n : node) (A : list entry) (from : bytes) (m : rmsg) : Prop :=
  match m_body m with
  | VoteReq lidx lterm _ => up_to_date (n_log n) lidx lterm -> Vr from (m_term m)
  | VoteResp g => g = true -> In from (m_voting (mship n)) -> W (n_me n) (m_term m) from
  | AppReq prev pterm commit es promise _ =>
      (forall A2 j e, K A2 -> nth_error es j = Some e -> llen A2 = prev + N.of_nat j -> K (A2 ++ [e])) /\
      (forall X A2 p n1, n_log n1 = n_log n ->
         (forall B, tracks n1 A prev es B -> upto p A2 = upto p B /\ p <= prev + llen es) -> p <= llen A2 -> n_commit n < N.min commit p ->
         (prev = 0 \/ exists e, at_idx (n_log n) prev = Some e /\ e_term e = pterm) ->
         Cm (m_term m) X A2 (N.min commit p))
  | AppResp s midx _ mp mhash =>
      s = true -> match at_idx (n_log n) midx with Some e => mhash = e_hash e | None => midx <= llen A end -> G (m_term m) A from mp
  | _ => True
  end.

Lemma receive_fine ok1 ok2 rnd m from n A n' : RI n A -> n_out n = [] ->
  (validate_msg m from n = Ret RE_OK -> msg_pre n A from m) ->
  receive sz hmac ok1 ok2 rnd m from n = Ret n' -> exists A', fine n A n' A'.
Proof.
  intros HR Ho Hpre E. unfold receive in E. binv E. rename a into er.
  assert (Hno : Ret n = Ret n' -> exists A', fine n A n' A') by (intros H; injection H as <-; exists A; now apply fine_refl).
  destruct er; try (apply Hno; exact E). clear Hno. specialize (Hpre E0). clear E0. unfold msg_pre in Hpre.
  destruct (update_term_same rnd (m_term m) n) as [U1 [U2 [U3 [U4 [U5 U6]]]]].
  pose proof (update_term_fine rnd (m_term m) n A HR Ho) as FU. set (nu := update_term rnd (m_term m) n) in *.
  destruct (seen_now_same from nu) as [S1 [S2 [S3 [S4 [S5 [S6 S7]]]]]].
  pose proof (seen_now_fg from nu A (fine_RI _ _ _ _ FU)) as FS. set (n1 := seen_now from nu) in *.
  assert (F1 : fine n A n1 A) by (eapply fine_trans; [exact FU|apply FS]).
  assert (L1 : n_log n1 = n_log n) by congruence. assert (O1 : n_out n1 = []) by congruence.
  assert (M1 : mship n1 = mship n) by congruence. assert (I1 : n_me n1 = n_me n) by congruence.
  pose proof (fine_RI _ _ _ _ F1) as R1.
  binv E. rename a into n2.
  assert (F2 : exists A2, fine n1 A n2 A2).
  { destruct (m_body m) as [lidx lterm h|g|prev pterm commit es promise ph|s midx mlast mp mh| |].
    - exists A. eapply handle_vote_request_fine; [exact R1|exact O1| |exact E0]. intros _. rewrite L1. exact Hpre.
    - destruct (_ <? _); [injection E0 as <-; exists A; now apply fine_refl|]. injection E0 as <-. exists A.
      apply handle_vote_response_fg; [exact R1|]. rewrite M1, I1. intros; now apply Hpre.
    - destruct Hpre as [HK HC]. eapply handle_append_request_fine; [exact R1|exact O1|exact HK| |exact E0].
      rewrite L1. intros X A2 p T Hp Hcm _ Hprev. apply (HC X A2 p n1 L1 T Hp); [congruence|exact Hprev].
    - destruct (_ <? _); [injection E0 as <-; exists A; now apply fine_refl|]. exists A.
      apply (handle_append_response_fg _ _ _ _ _ _ _ _ _ _ R1) in E0; [apply E0|]. rewrite L1. intros Hs _ _. now apply Hpre.
    - destruct (_ <? _); [injection E0 as <-; exists A; now apply fine_refl|]. exists A.
      eapply election_timeout_fine; eassumption.
    - injection E0 as <-; exists A; now apply fine_refl. }
  destruct F2 as [A2 F2]. destruct (change_state_fg ok2 rnd n2 A2 n' (fine_RI _ _ _ _ F2) E) as [A3 [[F3 _] _]].
  exists A3. eapply fine_trans; [exact F1|]. eapply fine_trans; eassumption.
Qed.

Lemma take_committed_fine n A n' r : RI n A -> take_committed n = Ret (n', r) ->
  RI n' A /\ EvH n A n' A /\ match r with
    | None => n' = n /\ n_commit n <= n_applied n
    | Some (i, e) => i = n_applied n + 1 /\ n_applied n' = i /\ n_applied n < n_commit n /\ nth_entry A i = Some e
    end.
Proof.
  intros HR E. unfold take_committed in E. destruct (n_commit n <=? n_applied n) eqn:Ec.
  { injection E as <- <-. split; [assumption|]. split; [apply Ev_EvH, Ev_refl|]. split; [reflexivity|lia]. }
  destruct (at_idx _ _) as [e|] eqn:Ea; [|discriminate]. injection E as <- <-.
  pose proof (st_at_some _ _ _ _ _ (ri_st _ _ HR) Ea) as Hn. pose proof (nth_entry_len _ _ _ Hn) as Hl.
  rewrite and_assoc_r. split; [|repeat split; [lia|exact Hn]].
  assert (Hg : grow n A (set_applied (n_applied n + 1) n) A) by (apply grow_same; reflexivity).
  destruct HR; split; constructor; auto; cbn [set_applied n_log n_applied n_commit n_promise n_term n_out]; try lia; try apply prefix_upto.
  - eapply st_mono; [exact ri_st0|lia].
  - apply (out_grow n A); assumption.
Qed.

(* --- any call --------------------------------------------------------------- *)
Definition op_pre (n : node) (A : list entry) (o : rop) : Prop :=
  match o with
  | OReceive _ _ _ from m => validate_msg m from n = Ret RE_OK -> msg_pre n A from m
  | ORequest _ _ x =>
      forall A1, is_leader n = true -> K A1 -> (forall g, x = IMember g -> A1 = A /\ n_unc n = [] /\
        exists m, from_proto g = (m, M_OK) /\ valid_progression (n_me n) (n_mem n) m (n_sm n) = M_OK) ->
      K (A1 ++ [own_entry A1 (n_term n) x])
  | _ => True
  end.
Lemma RI_sent n A : RI n A -> RI (set_out [] n) A.
Proof. intros []; constructor; auto. constructor. Qed.
Lemma rstep_fine n A o n' a : RI n A -> n_out n = [] -> op_pre n A o -> rstep sz hmac n o = Ret (n', a) ->
  exists n1 A', n' = set_out [] n1 /\ a_sent a = n_out n1 /\ RI n1 A' /\ EvH n A n1 A' /\
    match a_taken a with
    | None => n_applied n1 = n_applied n /\ (o = OTake -> n_commit n1 <= n_applied n1)
    | Some (i, e) => o = OTake /\ A' = A /\ i = n_applied n + 1 /\ n_applied n1 = i /\ n_applied n < n_commit n /\ nth_entry A i = Some e
    end /\
    match a_loc a with
    | Some (l, RE_OK) => exists ok rnd x, o = ORequest ok rnd x /\ is_leader n = true /\ lc_term l = n_term n /\
        lc_idx l = llen A + 1 /\ nth_entry A' (lc_idx l) = Some (Entry (lc_term l) x (lc_hash l))
    | _ => True
    end.
Proof.
  intros HR Ho Hpre E.
  assert (Hplain : forall (x : outcome node), (let* n1 := x in Ret (sent n1 None None)) = Ret (n', a) ->
     o <> OTake -> (forall n1, x = Ret n1 -> exists A', fine n A n1 A') -> 
     exists n1 A', n' = set_out [] n1 /\ a_sent a = n_out n1 /\ RI n1 A' /\ EvH n A n1 A' /\
      match a_taken a with
      | None => n_applied n1 = n_applied n /\ (o = OTake -> n_commit n1 <= n_applied n1)
      | Some (i, e) => o = OTake /\ A' = A /\ i = n_applied n + 1 /\ n_applied n1 = i /\ n_applied n < n_commit n /\ nth_entry A i = Some e
      end /\
      match a_loc a with
      | Some (l, RE_OK) => exists ok rnd x, o = ORequest ok rnd x /\ is_leader n = true /\ lc_term l = n_term n /\
          lc_idx l = llen A + 1 /\ nth_entry A' (lc_idx l) = Some (Entry (lc_term l) x (lc_hash l))
      | _ => True
      end).
  { intros x Ex Hno Hx. binv Ex. rename a0 into n1. unfold sent in Ex. injection Ex as <- <-.
    destruct (Hx n1 E0) as [A' [H1 H2]]. exists n1, A'. cbn [a_sent a_taken a_loc]. do 2 (split; [reflexivity|]).
    split; [assumption|]. split; [now apply Ev_EvH|]. split; [|exact I]. split; [apply (ev_applied _ _ _ _ H2)|congruence]. }
  destruct o as [ok rnd|ok1 ok2 rnd from m|id|c|ok rnd|ok rnd x|]; cbn [rstep] in E.
  - eapply Hplain; [exact E|discriminate|]. intros n1 E1. destruct (timer_tick_fine ok rnd n A n1 HR Ho E1) as [A' [F _]]. eauto.
  - eapply Hplain; [exact E|discriminate|]. intros n1 E1. exact (receive_fine ok1 ok2 rnd m from n A n1 HR Ho Hpre E1).
  - eapply Hplain; [exact E|discriminate|]. intros n1 E1. exists A. apply (reset_peer_fg id n A n1 HR E1).
  - apply (Hplain (Ret (reconfigure c n)) E); [discriminate|]. intros n1 E1. injection E1 as <-. exists A. now apply reconfigure_fg.
  - eapply Hplain; [exact E|discriminate|]. intros n1 E1. destruct (relinquish_fg ok rnd n A n1 HR E1) as [A' F]. exists A'. apply F.
  - binv E. destruct a0 as [n1 [l er]]. unfold sent in E. injection E as <- <-.
    destruct (log_request_fg ok rnd x n A n1 l er HR Hpre E0) as [A' [[[F1 F2] _] F3]].
    exists n1, A'. cbn [a_sent a_taken a_loc]. do 2 (split; [reflexivity|]).
    split; [assumption|]. split; [now apply Ev_EvH|]. split; [split; [apply (ev_applied _ _ _ _ F2)|discriminate]|].
    destruct er; auto. destruct (F3 eq_refl) as [? [? [? ?]]]. exists ok, rnd, x. auto 10.
  - binv E. destruct a0 as [n1 t]. unfold sent in E. injection E as <- <-.
    destruct (take_committed_fine n A n1 t HR E0) as [F1 [F2 F3]].
    exists n1, A. cbn [a_sent a_taken a_loc]. do 2 (split; [reflexivity|]). do 2 (split; [assumption|]). split; [|exact I].
    destruct t as [[i e]|]; [destruct F3 as [? [? [? ?]]]; auto 10|]. destruct F3 as [-> F3]. auto.
Qed.

Lemma new_node_fine group me mem log cfg committed sm ok rnd A d n :
  l_entries log = skipn d A -> l_oldest log = 1 + N.of_nat d -> (d = 0%nat \/ (d < length A)%nat /\ committed = true) ->
  chained hmac A -> K A -> MS mem [] -> ID me sm -> (forall X, Cm 0 X A (if committed then llen A else 0)) ->
  new_node sz hmac group me mem log cfg committed sm ok rnd = Ret n ->
  exists n0 A', fine n0 A n A' /\ n_out n = [] /\ n_me n0 = me /\ n_group n0 = group /\ n_mem n0 = mem /\ n_unc n0 = [] /\
    n_sm n0 = sm /\ n_term n0 = 0 /\ n_voted n0 = None /\ RI n0 A /\
    n_commit n0 = (if committed then llen A else 0) /\ n_applied n0 = n_commit n0 /\ n_promise n0 = n_commit n0.
Proof.
  intros He Hol Hd Hch HK HM HI HC E. unfold new_node in E. set (i := if committed then last_idx log else 0) in E.
  set (n0 := Node group me mem [] cfg i 0 None (Follower None rnd) log i i sm []) in E.
  assert (Hdl : (d <= length A)%nat).
  { destruct Hd as [->|[? _]]; lia. }
  assert (Hi : i = if committed then llen A else 0).
  { unfold i. destruct committed; [|reflexivity]. apply (st_last log (llen A)); [|lia].
    exists d. repeat split; auto. destruct Hd as [?|[? _]]; [auto|right; unfold llen; lia]. }
  assert (HR : RI n0 A).
  { constructor; cbn [n0 n_log n_applied n_commit n_promise n_mem n_unc n_role n_out]; auto.
    - exists d. repeat split; auto. destruct Hd as [?|[? Hc]]; [auto|right]. rewrite Hi, Hc. unfold llen; lia.
    - lia.
    - rewrite Hi. destruct committed; lia.
    - rewrite Hi. destruct committed; lia.
    - rewrite Hi. apply HC.
    - exact I.
    - exact I. }
  exists n0.
  assert (Hrest : n_me n0 = me /\ n_group n0 = group /\ n_mem n0 = mem /\ n_unc n0 = [] /\
    n_sm n0 = sm /\ n_term n0 = 0 /\ n_voted n0 = None /\ RI n0 A /\
    n_commit n0 = (if committed then llen A else 0) /\ n_applied n0 = n_commit n0 /\ n_promise n0 = n_commit n0) by auto 12.
  destruct (_ && _)%bool.
  - binv E. rename a into n1. binv E. rename a into n2.
    pose proof (election_timeout_fine rnd n0 A n1 HR eq_refl E0) as F1.
    destruct (change_state_fg ok rnd n1 A n2 (fine_RI _ _ _ _ F1) E1) as [A' [[F2 _] _]].
    exists A'. destruct (n_out n2) eqn:Eo; [|discriminate]. injection E as <-. split; [eapply fine_trans; eassumption|auto].
  - injection E as <-. exists A. split; [now apply fine_refl|auto].
Qed.
End Node.
