(* C30: a request that goes through the replicated log is answered exactly once, and
   a good answer means that its entry was committed and applied.
   C60: every request whose entry is applied is answered: refuted. *)
From Verif Require Import CoreTxSpec CoreTxProofs RaftChain RaftNode RaftRun P_Membership P_Raft.

Section P.
Variable sz : sizes.
Variable hmac : bytes -> bytes -> bytes.
Variables D E : Type.
(* any database and any way to make a client's response *)
Variable apply : D -> bytes -> D * option E.
Variable respond : N -> E -> option bytes.
Variable min_voting : N.
Notation core := (core D).
Notation cstep := (cstep sz hmac D E apply respond min_voting).
Notation cexec := (exec cstep).
Notation c_node := (c_node D). Notation c_db := (c_db D).

(* At every point of every history, a request made before is either still waited for
   and unanswered, or no longer waited for and answered once.  What is said answers a
   request that was made, with that request's number at the host. *)
Theorem C30_answered_exactly_once s0 h s rs : started sz hmac s0 -> cexec s0 h = Ret (s, rs) ->
  (forall q x, written h q x ->
     (waits s (q_no q) /\ answers (q_no q) rs = []) \/ (~ waits s (q_no q) /\ exists a, answers (q_no q) rs = [a])) /\
  (forall q a, In (q, a) (says rs) -> exists x, written h q x) /\
  (forall no, waits s no -> exists q x, written h q x /\ q_no q = no).
Proof.
  intros Hs E1. pose proof (inv_reached sz hmac D E apply respond min_voting _ _ _ _ Hs E1) as V. split; [|split].
  - intros q x Hw. exact (once sz hmac D _ _ _ _ V (written_no _ _ _ Hw)).
  - exact (v_said _ _ _ _ _ _ V).
  - intros no Hw. apply waits_wn in Hw. apply no_written. rewrite <- (v_count _ _ _ _ _ _ V). apply (in_wn_le sz hmac D h rs s no V). exact Hw.
Qed.
(* requests have different numbers *)
Theorem C30_requests_are_told_apart h q x q' x' : written h q x -> written h q' x' -> q_no q = q_no q' -> q = q' /\ x = x'.
Proof. apply written_unique. Qed.

(* A good answer is given only when an entry is applied, to a request placed at that
   entry; a client gets what the database made of the entry. *)
Theorem C30_a_good_answer_means_applied s0 h s rs o s' r q a : started sz hmac s0 -> cexec s0 h = Ret (s, rs) ->
  cstep s o = Ret (s', r) -> In (q, a) (r_said r) -> success a ->
  exists i e l, o = CTake true /\ r_taken r = Some (i, e) /\ i = n_applied (c_node s) + 1 /\
  placed rs (q_no q) l /\ matches i e l /\
  match q_by q with
  | AHost => a = SDone
  | AClient c => exists d ef b, e_inner e = IData d /\ apply (c_db s) d = (c_db s', Some ef) /\ respond c ef = Some b /\ a = SData b
  end.
Proof.
  intros Hs E1 Es Hin Ha. pose proof (inv_reached sz hmac D E apply respond min_voting _ _ _ _ Hs E1) as V.
  destruct (success_step sz hmac D E apply respond min_voting _ _ _ _ _ _ _ _ V Es Hin Ha) as (i & e & l & H1 & H2 & H3).
  destruct (taken_step sz hmac D E apply respond min_voting _ _ _ _ _ _ (v_node _ _ _ _ _ _ V) Es H2) as (_ & Hi & _).
  exists i, e, l. auto.
Qed.
(* A request is placed only where this replica, leading, put it into its own log, or
   where the answer of the replica it was forwarded to says. *)
Theorem C30_where_a_request_is s0 h s rs no l : started sz hmac s0 -> cexec s0 h = Ret (s, rs) -> placed rs no l ->
  exists h1 o h2 s1 rs1, h = h1 ++ o :: h2 /\ cexec s0 h1 = Ret (s1, rs1) /\
  (o = CAnswer no (FLocated l) \/
   exists q x ok rnd b, o = CWrite (q_tx q) (q_by q) x ok rnd b /\ q_no q = no /\ no = count is_write h1 + 1 /\
     is_leader (c_node s1) = true /\ logged_at sz hmac (c_node s1) x l).
Proof.
  intros Hs. revert s rs. induction h as [|o h IH] using rev_ind; intros s rs E1 Hp.
  { cbn in E1. injection E1 as <- <-. destruct Hp as (r & [] & _). }
  rewrite exec_app in E1. destruct (cexec s0 h) as [[s1 rs1]|] eqn:Eh; [|discriminate]. cbn [exec] in E1.
  destruct (cstep s1 o) as [[s2 r]|] eqn:Es; [|discriminate]. injection E1 as <- <-. apply placed_last in Hp as [Hp|Hp].
  - destruct (IH _ _ eq_refl Hp) as (h1 & o1 & h2 & s3 & rs3 & -> & H1 & H2). exists h1, o1, (h2 ++ [o]), s3, rs3.
    rewrite <- app_assoc. auto.
  - exists h, o, [], s1, rs1. split; [reflexivity|]. split; [assumption|].
    destruct (placed_step sz hmac D E apply respond min_voting _ _ _ _ _ _ Es Hp) as [->|(tx & by_ & x & ok & rnd & b & -> & Hno & Hl & Hlog)]; [now left|right].
    pose proof (inv_reached sz hmac D E apply respond min_voting _ _ _ _ Hs Eh) as V.
    exists (Req no tx by_), x, ok, rnd, b. rewrite <- (v_count _ _ _ _ _ _ V). auto.
Qed.
(* Whichever replica put the request into its log: the entry that is applied at its
   place is the request, or the keyed hash gave the same value for the request on top
   of that replica's log and for the entry on top of the log it is applied from. *)
Theorem C30_the_applied_entry_is_the_request s0 h s rs o s' r i e n1 x l : started sz hmac s0 -> cexec s0 h = Ret (s, rs) ->
  cstep s o = Ret (s', r) -> r_taken r = Some (i, e) ->
  reached sz hmac n1 -> logged_at sz hmac n1 x l -> match x with IMember _ => False | _ => True end -> matches i e l ->
  e_inner e = x \/
  exists A, holds (n_log (c_node s)) A /\ chained hmac A /\ nth_entry A i = Some e /\
    same_mac hmac (recent_hash (n_log n1), tagged x i (e_term e)) (prev_hash A (N.to_nat (i - 1)), tagged (e_inner e) i (e_term e)).
Proof.
  intros Hs E1 Es Ht Hr Hl Hx Hm. pose proof (inv_reached sz hmac D E apply respond min_voting _ _ _ _ Hs E1) as V.
  destruct (taken_step sz hmac D E apply respond min_voting _ _ _ _ _ _ (v_node _ _ _ _ _ _ V) Es Ht) as (_ & _ & _ & A & H1 & H2 & H3).
  destruct (same_entry sz hmac n1 x l A i e Hr Hl Hx H2 H3 Hm) as [|H]; [now left|right; eauto].
Qed.
(* the three together, for a request that was not forwarded *)
Theorem C30_a_good_answer_means_this_request_applied s0 h s rs o s' r q a x : started sz hmac s0 -> cexec s0 h = Ret (s, rs) ->
  cstep s o = Ret (s', r) -> In (q, a) (r_said r) -> success a ->
  written h q x -> ~ told h (q_no q) -> match x with IMember _ => False | _ => True end ->
  exists i e, r_taken r = Some (i, e) /\
  (e_inner e = x \/
   exists A n1, holds (n_log (c_node s)) A /\ chained hmac A /\ nth_entry A i = Some e /\ reached sz hmac n1 /\
    same_mac hmac (recent_hash (n_log n1), tagged x i (e_term e)) (prev_hash A (N.to_nat (i - 1)), tagged (e_inner e) i (e_term e))).
Proof.
  intros Hs E1 Es Hin Ha Hw Hnt Hx.
  destruct (C30_a_good_answer_means_applied _ _ _ _ _ _ _ _ _ Hs E1 Es Hin Ha) as (i & e & l & _ & Ht & _ & Hp & Hm & _).
  exists i, e. split; [assumption|].
  destruct (C30_where_a_request_is _ _ _ _ _ _ Hs E1 Hp) as (h1 & o1 & h2 & s1 & rs1 & -> & E2 & [->|(q' & x' & ok & rnd & b & -> & Hq & Hn & _ & Hlog)]).
  { exfalso. apply Hnt. exists l. apply in_or_app; right; now left. }
  assert (Hw' : written (h1 ++ CWrite (q_tx q') (q_by q') x' ok rnd b :: h2) q' x') by (exists h1, ok, rnd, b, h2; split; [reflexivity|congruence]).
  destruct (written_unique _ _ _ _ _ Hw Hw') as [_ <-]; [congruence|].
  pose proof (v_node _ _ _ _ _ _ (inv_reached sz hmac D E apply respond min_voting _ _ _ _ Hs E2)) as Hr.
  destruct (C30_the_applied_entry_is_the_request _ _ _ _ _ _ _ _ _ _ _ _ Hs E1 Es Ht Hr Hlog Hx Hm) as [|(A & H1 & H2 & H3 & H4)]; [now left|right].
  exists A, (c_node s1). auto.
Qed.
(* A request this replica put into its own log is answered by the time the replica has
   applied that far: with its effect, or with an error if another entry is there. *)
Theorem C30_answered_when_the_index_is_applied s0 h s rs no l : started sz hmac s0 -> cexec s0 h = Ret (s, rs) ->
  placed rs no l -> ~ told h no -> lc_idx l <= n_applied (c_node s) -> ~ waits s no.
Proof.
  intros Hs E1 Hp Hn Hi Hw. pose proof (inv_reached sz hmac D E apply respond min_voting _ _ _ _ Hs E1) as V.
  destruct (where_reached sz hmac D E apply respond min_voting _ _ _ _ Hs E1) as [_ W2 W3].
  destruct Hw as [(q & Hq & Eq)|(w & Hw & Eq)]; [exact (W2 _ _ _ Hp Hq Eq)|].
  destruct (v_late _ _ _ _ _ _ V w Hw) as [H|H]; [rewrite (W3 _ _ _ Hp Hw Eq) in H; lia|]. now rewrite Eq in H.
Qed.
(* When the index a waiting request is placed at is applied, the request is answered
   in that very step; if the entry is another one, with an error. *)
Theorem C30_another_entry_means_an_error s0 h s rs o s' r no l i e : started sz hmac s0 -> cexec s0 h = Ret (s, rs) ->
  cstep s o = Ret (s', r) -> r_taken r = Some (i, e) -> placed rs no l -> waits s no -> lc_idx l = i ->
  exists q a, In (q, a) (r_said r) /\ q_no q = no /\ (~ matches i e l -> failure a).
Proof.
  intros Hs E1 Es Ht Hp Hw Hi. pose proof (inv_reached sz hmac D E apply respond min_voting _ _ _ _ Hs E1) as V.
  pose proof (where_reached sz hmac D E apply respond min_voting _ _ _ _ Hs E1) as W.
  pose proof (inv_step sz hmac D E apply respond min_voting _ _ _ _ _ _ V Es) as V1.
  pose proof (where_step sz hmac D E apply respond min_voting _ _ _ _ _ _ V W Es) as W1.
  assert (Hno : 1 <= no <= count is_write h) by (rewrite <- (v_count _ _ _ _ _ _ V); apply (in_wn_le sz hmac D h rs s no V); now apply waits_wn).
  destruct (once sz hmac D _ _ _ _ V Hno) as [[_ Ha]|[X _]]; [|contradiction].
  destruct (taken_step sz hmac D E apply respond min_voting _ _ _ _ _ _ (v_node _ _ _ _ _ _ V) Es Ht) as (Ho & Hi' & Hap & _).
  assert (Hlate : forall w, In w (c_watch D s') -> q_no (w_req w) = no -> n_applied (c_node s') < lc_idx (w_at w) \/ lc_idx (w_at w) <> i).
  { intros w Hin Hq. right. subst o. cbn [CoreTx.cstep] in Es. unfold take in Es.
    destruct (rstep sz hmac (c_node s) OTake) as [[n a1]|] eqn:Er; [|discriminate]. cbn [bind] in Es.
    destruct (a_taken a1) as [[i1 e1]|]; [|injection Es as <- <-; discriminate]. cbn [negb] in Es.
    destruct (match e_inner e1 with IData d => apply (c_db s) d | _ => (c_db s, None) end) as [db eff].
    destruct (callbacks _ _ _ _) as [op said] eqn:Ec. injection Es as <- <-. cbn in Ht, Hin. injection Ht as -> ->.
    apply filter_In in Hin as [_ Hin]. now apply Bool.negb_true_iff, N.eqb_neq in Hin. }
  destruct (once sz hmac D _ _ s' no V1) as [[Hw' _]|[_ [a Ha']]].
  { rewrite count_app. lia. }
  { exfalso. destruct Hw' as [(q & Hq & Eq)|(w & Hin & Eq)]; [exact (p_fwd _ _ _ W1 _ _ _ (placed_more _ _ _ [r] Hp) Hq Eq)|].
    pose proof (p_at _ _ _ W1 _ _ _ (placed_more _ _ _ [r] Hp) Hin Eq) as Hat. destruct (Hlate w Hin Eq); rewrite Hat in *; lia. }
  unfold answers in Ha, Ha'. rewrite says_last, flat_map_app, Ha in Ha'. cbn [app] in Ha'.
  assert (Hin : In a [a]) by now left. rewrite <- Ha' in Hin. apply in_flat_map in Hin as [[q b] [Hin Hb]]. cbn in Hb.
  destruct (N.eqb_spec (q_no q) no) as [Eq|]; [|contradiction]. destruct Hb as [->|[]]. exists q, a. split; [assumption|]. split; [assumption|].
  intros Hnm. destruct a as [b| |code]; [exfalso|exfalso|exact I].
  - destruct (C30_a_good_answer_means_applied _ _ _ _ _ _ _ _ _ Hs E1 Es Hin I) as (i2 & e2 & l2 & _ & Ht2 & _ & Hp2 & Hm2 & _).
    rewrite Ht in Ht2. injection Ht2 as <- <-. apply Hnm. rewrite Eq in Hp2. destruct Hw as [(q0 & Hq & Eq0)|(w & Hin2 & Eq0)]; [destruct (p_fwd _ _ _ W _ _ _ Hp Hq Eq0)|].
    rewrite <- (p_at _ _ _ W _ _ _ Hp Hin2 Eq0), (p_at _ _ _ W _ _ _ Hp2 Hin2 Eq0). exact Hm2.
  - destruct (C30_a_good_answer_means_applied _ _ _ _ _ _ _ _ _ Hs E1 Es Hin I) as (i2 & e2 & l2 & _ & Ht2 & _ & Hp2 & Hm2 & _).
    rewrite Ht in Ht2. injection Ht2 as <- <-. apply Hnm. rewrite Eq in Hp2. destruct Hw as [(q0 & Hq & Eq0)|(w & Hin2 & Eq0)]; [destruct (p_fwd _ _ _ W _ _ _ Hp Hq Eq0)|].
    rewrite <- (p_at _ _ _ W _ _ _ Hp Hin2 Eq0), (p_at _ _ _ W _ _ _ Hp2 Hin2 Eq0). exact Hm2.
Qed.
(* a client that was told an error gets no other answer until it connects again *)
Theorem C30_nothing_good_after_an_error h s s' rs code c q x y : cexec s h = Ret (s', rs) -> none_of (opens c) h ->
  says rs = x ++ (q, SError code) :: y -> q_by q = AClient c ->
  forall q' a, In (q', a) y -> q_by q' = AClient c -> failure a.
Proof. apply after_error. Qed.

(* A replica that is not in the group, a leader with fewer voters than the group must
   have, and a replica that knows of no leader turn a request down at once: nothing is
   taken into the log, sent to another replica or waited for. *)
Theorem C30_turned_down_at_once s tx by_ x ok rnd sent :
  c_part D s = false \/
  (is_leader (c_node s) = true /\ psize (m_voting (mship (c_node s))) < min_voting) \/
  (is_leader (c_node s) = false /\ forall l v, n_role (c_node s) <> Follower (Some l) v) ->
  exists s' r, cstep s (CWrite tx by_ x ok rnd sent) = Ret (s', r) /\ c_node s' = c_node s /\ c_db s' = c_db s /\
  c_watch D s' = c_watch D s /\ c_fwd D s' = c_fwd D s /\ r_placed r = None /\ r_taken r = None /\
  exists q code, r_said r = [(q, SError code)] /\ q_tx q = tx /\ q_by q = by_.
Proof.
  intros H. assert (G : exists code, code <> E_LogCancelled /\ cstep s (CWrite tx by_ x ok rnd sent) = Ret (refuse D E respond code (Req (c_count D s + 1) tx by_) s)).
  { cbn [CoreTx.cstep]. unfold write. destruct (negb match by_ with AClient c => existsb (N.eqb c) (c_open D s) | AHost => true end);
      [exists E_ClientNotFound; split; [discriminate|reflexivity]|].
    destruct H as [->|H]; [exists E_RaftState; split; [discriminate|reflexivity]|].
    destruct (negb (c_part D s)); [exists E_RaftState; split; [discriminate|reflexivity]|]. destruct H as [[-> Hv]|[-> Hf]].
    - apply N.ltb_lt in Hv. rewrite Hv. exists E_NotEnoughVoting; split; [discriminate|reflexivity].
    - destruct (n_role (c_node s)) as [[l|] v| |]; try (exists E_LeaderUnknown; split; [discriminate|reflexivity]). now destruct (Hf l v). }
  destruct G as (code & Hc & G).
  rewrite G. unfold refuse. destruct (callback E respond (Req (c_count D s + 1) tx by_) (inl code) (c_open D s)) as [open a] eqn:Ec.
  eexists _, _. split; [reflexivity|]. cbn. repeat (split; [reflexivity|]).
  unfold callback in Ec. cbn [q_by] in Ec. destruct by_; injection Ec as _ <-; eexists _, _; (split; [reflexivity|]); split; reflexivity.
Qed.

(* C60 for the requests that are not forwarded, and for those forwarded whose place
   is learnt before it is applied.  Missing: a forwarded request whose place is learnt
   too late (below). *)
Theorem C60_answered_if_the_place_is_known_in_time_partial s0 h s rs no l : started sz hmac s0 -> cexec s0 h = Ret (s, rs) ->
  placed rs no l -> waits s no -> n_applied (c_node s) < lc_idx l ->
  forall h2 s2 rs2, cexec s h2 = Ret (s2, rs2) -> lc_idx l <= n_applied (c_node s2) -> exists a, answers no (rs ++ rs2) = [a].
Proof.
  intros Hs E1 Hp Hw Hi h2 s2 rs2 E2 Hi2.
  pose proof (inv_reached sz hmac D E apply respond min_voting _ _ _ _ Hs E1) as V.
  pose proof (where_reached sz hmac D E apply respond min_voting _ _ _ _ Hs E1) as W.
  assert (Hno : 1 <= no <= count is_write h) by (rewrite <- (v_count _ _ _ _ _ _ V); apply (in_wn_le sz hmac D h rs s no V); now apply waits_wn).
  assert (Hlate : forall w, In w (c_watch D s) -> q_no (w_req w) = no -> n_applied (c_node s) < lc_idx (w_at w)).
  { intros w Hin Hq. now rewrite (p_at _ _ _ W _ _ _ Hp Hin Hq). }
  clear Hw Hi. revert h rs s V W Hno Hlate Hp E1 E2 . revert rs2. induction h2 as [|o h2 IH]; intros rs2 h rs s V W Hno Hlate Hp E1 E2.
  - cbn in E2. injection E2 as <- <-. rewrite app_nil_r.
    destruct (once sz hmac D _ _ _ _ V Hno) as [[Hw _]|[_ H]]; [exfalso|assumption].
    destruct Hw as [(q & Hq & Eq)|(w & Hw & Eq)]; [exact (p_fwd _ _ _ W _ _ _ Hp Hq Eq)|]. specialize (Hlate w Hw Eq). rewrite (p_at _ _ _ W _ _ _ Hp Hw Eq) in Hlate. lia.
  - cbn [exec] in E2. destruct (cstep s o) as [[s1 r]|] eqn:Es; [|discriminate]. destruct (cexec s1 h2) as [[s3 rs3]|] eqn:Eh; [|discriminate]. injection E2 as <- <-.
    pose proof (inv_step sz hmac D E apply respond min_voting _ _ _ _ _ _ V Es) as V1.
    pose proof (where_step sz hmac D E apply respond min_voting _ _ _ _ _ _ V W Es) as W1.
    change (r :: rs3) with ([r] ++ rs3). rewrite app_assoc. apply (IH rs3 (h ++ [o]) (rs ++ [r]) s1 V1 W1); auto.
    + rewrite count_app. lia.
    + intros w Hin Hq. pose proof (p_at _ _ _ W1 _ _ _ (placed_more _ _ _ [r] Hp) Hin Hq) as Hat.
      apply (late_step sz hmac D E apply respond min_voting s o s1 r no (v_node _ _ _ _ _ _ V) Es); auto.
      * intros q Hq'. exact (p_fwd _ _ _ W _ _ _ Hp Hq').
      * exact (p_no _ _ _ W _ _ Hp).
    + now apply placed_more.
    + rewrite exec_app, E1. cbn [exec]. now rewrite Es.
Qed.
End P.

(* C60, refuted: a follower forwards a request; the entry is committed and applied here
   before the leader's answer arrives.  The replica then waits for an index it has
   already passed, and whatever happens (but for its removal from the group) the
   request is never answered, although its entry took effect. *)
Definition x_apply (db : list bytes) (d : bytes) : list bytes * option N := (d :: db, Some (blen d)).
Definition x_respond (c : N) (e : N) : option bytes := Some [c; e].
Definition x_step := cstep toy_sizes toy_hmac (list bytes) N x_apply x_respond 1.
Definition x_late : list cop :=
  [COpen 5;
   CRaft (OReceive true true 3 (pid 2) (RMsg 77 1 (AppReq 0 0 0 [Entry 1 INone x_hash1] 0 [])));
   CWrite 900 (AClient 5) (IData [42]) true 3 true;
   CRaft (OReceive true true 3 (pid 2) (RMsg 77 1 (AppReq 1 1 2 [Entry 1 (IData [42]) x_hash2] 2 x_hash1)));
   CTake true; CTake true;
   CAnswer 1 (FLocated (Loc 1 2 x_hash2))].
Theorem C60_an_applied_request_may_wait_forever_refuted :
  exists s0 s rs q, started toy_sizes toy_hmac s0 /\ exec x_step s0 x_late = Ret (s, rs) /\ written x_late q (IData [42]) /\
    In (Some (2, Entry 1 (IData [42]) x_hash2)) (map r_taken rs) /\ c_db _ s = [[42]] /\
    placed rs (q_no q) (Loc 1 2 x_hash2) /\
    forall h2 s2 rs2, exec x_step s h2 = Ret (s2, rs2) -> none_of (removes (pid 1)) rs2 ->
      waits s2 (q_no q) /\ answers (q_no q) (rs ++ rs2) = [].
Proof.
  assert (E0 : exists n0, x_new = Ret n0) by (eexists; vm_compute; reflexivity). destruct E0 as [n0 E0].
  pose proof (x_born n0 E0) as Hb. set (s0 := new_core (list bytes) n0 [] true).
  assert (Hs : started toy_sizes toy_hmac s0).
  { exists n0, [], true. split; [|reflexivity]. exists n0, [], [], []. split; [exact Hb|reflexivity]. }
  assert (Ex : exists s rs, exec x_step s0 x_late = Ret (s, rs) /\ In (Some (2, Entry 1 (IData [42]) x_hash2)) (map r_taken rs) /\ c_db _ s = [[42]] /\
     r_placed (last rs quiet_res) = Some (1, Loc 1 2 x_hash2) /\ rs <> [] /\
     In (Watch (Req 1 900 (AClient 5)) (Loc 1 2 x_hash2)) (c_watch _ s) /\ n_applied (c_node _ s) = 2 /\ n_me (c_node _ s) = pid 1).
  { unfold s0. vm_compute in E0. injection E0 as <-. eexists _, _. split; [vm_compute; reflexivity|].
    split; [right; right; right; right; right; left; vm_compute; reflexivity|]. split; [vm_compute; reflexivity|]. split; [vm_compute; reflexivity|].
    split; [discriminate|]. split; [left; vm_compute; reflexivity|]. split; vm_compute; reflexivity. }
  destruct Ex as (s & rs & E1 & H1 & H2 & H3 & Hne & H4 & H5 & H6).
  pose proof (inv_reached _ _ _ _ _ _ _ _ _ _ _ Hs E1) as V.
  exists s0, s, rs, (Req 1 900 (AClient 5)). split; [exact Hs|]. split; [exact E1|].
  assert (Hw : written x_late (Req 1 900 (AClient 5)) (IData [42])).
  { exists (firstn 2 x_late), true, 3%Z, true, (skipn 3 x_late). split; reflexivity. }
  split; [exact Hw|]. split; [exact H1|]. split; [exact H2|]. split.
  { exists (last rs quiet_res). split; [|exact H3]. destruct rs as [|r rs] using rev_ind; [contradiction|]. rewrite last_last. apply in_or_app; right; now left. }
  intros h2 s2 rs2 E2 Hn.
  assert (Hin : In (Watch (Req 1 900 (AClient 5)) (Loc 1 2 x_hash2)) (c_watch _ s2)).
  { apply (stuck _ _ _ _ _ _ _ h2 s s2 rs2 _ (v_node _ _ _ _ _ _ V) E2); [now rewrite H6|exact H4|]. rewrite H5. vm_compute. discriminate. }
  assert (Hwt : waits s2 1) by (right; eexists; split; [exact Hin|reflexivity]).
  split; [exact Hwt|].
  assert (E3 : exec x_step s0 (x_late ++ h2) = Ret (s2, rs ++ rs2)) by (rewrite exec_app, E1, E2; reflexivity).
  destruct (C30_answered_exactly_once _ _ _ _ _ _ _ _ _ _ _ Hs E3) as [H _].
  destruct (H (Req 1 900 (AClient 5)) (IData [42])) as [[_ X]|[X _]]; [now apply written_more|exact X|contradiction].
Qed.

(* --- a leader's run ----------------------------------------------------------- *)
(* elected, takes a client's and the host's request; both are committed, applied and
   answered; the client's second request is lost to another leader's entry *)
Definition x_hash3 : bytes := toy_hmac x_hash2 (tagged (IData [7; 8]) 3 1).
Definition x_hash4 : bytes := toy_hmac x_hash3 (tagged (IData [9]) 4 3).
Definition x_lead : list cop :=
  [COpen 5; CRaft (OTick true 3); CRaft (OReceive true true 3 (pid 2) (RMsg 77 1 (VoteResp true)));
   CWrite 900 (AClient 5) (IData [42]) true 3 false; CWrite 901 AHost (IData [7; 8]) true 3 false;
   CWrite 902 (AClient 5) (IData [1]) true 3 false; CWrite 903 (AClient 6) (IData [1]) true 3 false;
   CRaft (OReceive true true 3 (pid 2) (RMsg 77 1 (AppResp true 3 3 0 x_hash3)));
   CRaft (OReceive true true 3 (pid 2) (RMsg 77 1 (AppResp true 3 3 3 x_hash3)));
   CTake true; CTake true; CTake true;
   CRaft (OReceive true true 3 (pid 3) (RMsg 77 3 (AppReq 3 1 4 [Entry 3 (IData [9]) x_hash4] 4 x_hash3)));
   CTake true].
Definition x_lead_run : outcome (core (list bytes) * list cres) :=
  match x_new with Ret n0 => exec x_step (new_core (list bytes) n0 [] true) x_lead | Crash => Crash end.
Example x_lead_story : match x_lead_run with
  | Ret (s, rs) => (map (fun a => (q_tx (fst a), snd a)) (says rs), c_db _ s, n_applied (c_node _ s), c_watch _ s)
  | Crash => ([], [], 0, []) end =
  ([(903, SError E_ClientNotFound); (900, SData [5; 1]); (901, SDone); (902, SError E_ClientCancelled)], [[9]; [7; 8]; [42]], 4, []).
Proof. vm_compute. reflexivity. Qed.
(* the hypotheses of the theorems are met: a good answer to a request that was not forwarded *)
Example x_good : exists s0 s rs s' r q a, started toy_sizes toy_hmac s0 /\ exec x_step s0 (firstn 10 x_lead) = Ret (s, rs) /\
  x_step s (CTake true) = Ret (s', r) /\ In (q, a) (r_said r) /\ success a /\ written (firstn 10 x_lead) q (IData [42]) /\
  ~ told (firstn 10 x_lead) (q_no q) /\ q_by q = AClient 5.
Proof.
  assert (E0 : exists n0, x_new = Ret n0) by (eexists; vm_compute; reflexivity). destruct E0 as [n0 E0].
  pose proof (x_born n0 E0) as Hb.
  assert (Hs : started toy_sizes toy_hmac (new_core (list bytes) n0 [] true)).
  { exists n0, [], true. split; [|reflexivity]. exists n0, [], [], []. split; [exact Hb|reflexivity]. }
  exists (new_core (list bytes) n0 [] true). vm_compute in E0. injection E0 as <-.
  eexists _, _, _, _, (Req 1 900 (AClient 5)), (SData [5; 1]). split; [exact Hs|].
  split; [vm_compute; reflexivity|]. split; [vm_compute; reflexivity|]. split; [left; reflexivity|]. split; [exact I|].
  split; [exists (firstn 3 x_lead), true, 3%Z, false, (skipn 4 (firstn 10 x_lead)); split; reflexivity|]. split; [|reflexivity].
  intros [l Hl]. cbn in Hl. repeat (destruct Hl as [Hl|Hl]; [discriminate|]). exact Hl.
Qed.

Print Assumptions C30_answered_exactly_once.
Print Assumptions C30_requests_are_told_apart.
Print Assumptions C30_a_good_answer_means_applied.
Print Assumptions C30_where_a_request_is.
Print Assumptions C30_the_applied_entry_is_the_request.
Print Assumptions C30_a_good_answer_means_this_request_applied.
Print Assumptions C30_answered_when_the_index_is_applied.
Print Assumptions C30_another_entry_means_an_error.
Print Assumptions C30_nothing_good_after_an_error.
Print Assumptions C60_answered_if_the_place_is_known_in_time_partial.
Print Assumptions C60_an_applied_request_may_wait_forever_refuted.
Print Assumptions C30_turned_down_at_once.
