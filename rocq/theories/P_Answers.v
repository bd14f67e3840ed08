(* C81: the enclave answers each request of the host once. *)
From Verif Require Import AnswersSpec AnswersProofs.
From Coq Require Import Lia.

(* Whatever happens, a request is answered at most once, and nothing that was not asked is
   answered.  Missing: requests to join a group. *)
Theorem C81_answered_at_most_once_partial es tx q : numbered es -> In (tx, q) (asked es) -> is_join q = false ->
  (answers tx (run es) <= 1)%nat.
Proof.
  intros Hn Hin Hj. destruct (run_weight tx es (numbered_one es tx q Hn Hin Hj)) as (_ & B & _).
  pose proof (cnt_le tx (asked es) Hn). unfold weight in B. lia.
Qed.
Theorem C81_only_what_was_asked es tx : ~ In tx (map fst (asked es)) -> answers tx (run es) = O.
Proof.
  intros Hin. destruct (run_weight tx es) as (_ & B & _).
  { intros p Hp. apply Hin. apply (in_map fst) in Hp. exact Hp. }
  assert (H : cnt tx (asked es) = O); [|unfold weight in B; lia].
  unfold cnt. clear B. induction (asked es) as [|x l IH]; [reflexivity|]. cbn [filter]. unfold counts at 1.
  destruct (N.eqb_spec (fst x) tx) as [E|E]; [exfalso; apply Hin; left; exact E|]. cbn [andb]. apply IH. intros H. apply Hin. right. exact H.
Qed.

(* As long as the enclave runs, a request has been answered once, or exactly one callback
   waits that will answer it.  Numbers are not 0, and the request is one of those known. *)
Theorem C81_never_forgotten_partial es tx q : numbered es -> In (tx, q) (asked es) ->
  tx <> 0 -> is_join q = false -> no_request q = false -> dead (run es) = false ->
  (answers tx (run es) + waiting tx (run es) = 1)%nat.
Proof.
  intros Hn Hin H0 Hj Hu Hd. destruct (run_weight tx es (numbered_one es tx q Hn Hin Hj)) as (_ & _ & C).
  specialize (C Hd). pose proof (cnt_le tx (asked es) Hn). pose proof (cnt_in tx q (asked es) Hin H0 Hj Hu).
  rewrite waiting_owed. unfold weight in C. lia.
Qed.

(* And those callbacks do answer: when the replica does not answer in time, *)
Theorem C81_no_answer_in_time es tx q n to c choices : numbered es -> In (tx, q) (asked es) -> is_join q = false ->
  dead (run es) = false -> In (n, (to, c)) (calls (run es)) -> peer_number c = Some tx ->
  answers tx (run (es ++ [(ETimeout n, choices)])) = 1%nat.
Proof.
  intros Hn Hin Hj Hd Hc Hp. assert (Hnj := numbered_one es tx q Hn Hin Hj). destruct (run_weight tx es Hnj) as (A & B & _).
  pose proof (cnt_le tx (asked es) Hn) as Hle. rewrite run_snoc. unfold step. rewrite Hd. cbn [fst snd].
  set (w := set_ch choices (run es)). assert (Hw : free tx w) by exact A.
  assert (Hww : weight tx w = weight tx (run es)) by reflexivity.
  unfold timed_out. destruct (take_call n w) as [[[to' c']|] w'] eqn:E.
  - destruct (take_call_spec tx n w to' c' w' Hw E) as (X & Y & Z & W).
    assert (Hcc : c' = c).
    { unfold take_call in E. destruct (find _ (calls w)) as [[m c0]|] eqn:Ef; [|discriminate]. injection E as -> _.
      pose proof (filter_one n _ _ (proj1 (proj2 (proj2 (proj2 (proj2 Hw))))) Ef) as Hf.
      assert (Hm : In (n, (to, c)) (filter (fun x => fst x =? n) (calls w))) by (apply filter_In; split; [exact Hc|apply N.eqb_refl]).
      rewrite Hf in Hm. destruct Hm as [Hm|[]]. congruence. }
    subst c'. destruct (a_fail tx c Z w' X) as (X' & _ & W'). unfold one in *. rewrite Hp in *. cbn [is_n] in W, W'. rewrite N.eqb_refl in W, W'. cbv iota in W, W'.
    assert (Ha : (answers tx (fail c w') = 1 + answers tx w')%nat).
    { destruct c as [t|l|t p|t|t m|]; cbn in Hp, Z; try congruence; try (injection Hp as ->; cbn [fail]; unfold answers, say; cbn [said]; rewrite count_occ_app; cbn; destruct (N.eq_dec tx tx); [lia|congruence]).
      - destruct l as [t|t|t m|]; cbn in Hp, Z; try congruence; injection Hp as ->; cbn [fail run_log].
        + unfold either, pick. destruct (ch w') as [|[|] r]; unfold answers, say; cbn [said set_ch]; rewrite count_occ_app; cbn; destruct (N.eq_dec tx tx); (lia || congruence).
        + unfold answers, say. cbn [said]. rewrite count_occ_app. cbn. destruct (N.eq_dec tx tx); [lia|congruence]. }
    unfold weight in *. lia.
  - exfalso. unfold take_call in E. destruct (find _ (calls w)) as [[m c0]|] eqn:Ef; [discriminate|].
    apply (find_none _ _ Ef) in Hc. cbn in Hc. rewrite N.eqb_refl in Hc. discriminate.
Qed.

(* and when the entry at the place it waits for is applied, or the replica is removed from the group. *)
Theorem C81_applied es tx q idx l ok choices : numbered es -> In (tx, q) (asked es) -> is_join q = false ->
  dead (run es) = false -> In (idx, l) (waits (run es)) -> log_number l = Some tx ->
  answers tx (run (es ++ [(ECommitted idx ok, choices)])) = 1%nat.
Proof.
  intros Hn Hin Hj Hd Hc Hp. assert (Hnj := numbered_one es tx q Hn Hin Hj). destruct (run_weight tx es Hnj) as (A & B & _).
  pose proof (cnt_le tx (asked es) Hn) as Hle. rewrite run_snoc. unfold step. rewrite Hd. cbn [fst snd].
  set (w := set_ch choices (run es)). assert (Hw : free tx w) by exact A.
  assert (Hww : weight tx w = weight tx (run es)) by reflexivity.
  assert (Hs : (1 <= sum_logs tx (filter (fun x => (fst x =? idx)%N) (waits w)))%nat).
  { unfold sum_logs. assert (Hm : In (idx, l) (filter (fun x => is_n tx (log_number (snd x))) (filter (fun x => (fst x =? idx)%N) (waits w)))).
    { apply filter_In. split; [apply filter_In; split; [exact Hc|apply N.eqb_refl]|]. cbn [snd]. rewrite Hp. apply N.eqb_refl. }
    destruct (filter (fun x => is_n tx _) _); [destruct Hm|cbn; lia]. }
  assert (Hrun : forall L o x, Forall (fun y => log_free tx (snd y)) L -> free tx x -> answers tx (run_logs L o x) = (sum_logs tx L + answers tx x)%nat).
  { intros L. induction L as [|y L IH]; intros o x HL Hx; [reflexivity|]. inversion HL as [|? ? Hy HL']; subst. cbn [run_logs]. rewrite sumw_cons.
    destruct (a_run_log tx (snd y) (hd false o) Hy x Hx) as (X & _ & W0). rewrite (IH (tl o) _ HL' X).
    assert (H1 : answers tx (run_log (snd y) (hd false o) x) = (one tx (log_number (snd y)) + answers tx x)%nat).
    { assert (Ho : owed tx (run_log (snd y) (hd false o) x) = owed tx x).
      { destruct (snd y) as [t|t|t m|]; cbn [run_log]; [unfold either, pick; destruct (ch x) as [|[|] r]; reflexivity|reflexivity| |reflexivity].
        destruct (hd false o); [|reflexivity]. unfold cancel_timer, either, pick. destruct (ch x) as [|[|] r]; reflexivity. }
      unfold weight in W0. lia. }
    lia. }
  unfold committed in *. rewrite Hrun; [|apply Forall_filter, Hw|apply free_waits; [apply Forall_filter, Hw|exact Hw]].
  unfold weight in *.
  set (w1 := set_waits _ w) in *. change (answers tx w1) with (answers tx w) in *.
  assert (owed tx w1 + sum_logs tx (filter (fun x => (fst x =? idx)%N) (waits w)) = owed tx w)%nat.
  { pose proof (sumw_split tx (fun x => (fst x =? idx)%N) (waits w)). unfold owed, w1, sum_logs in *. cbn [calls waits set_waits]. change (waits (run es)) with (waits w). lia. }
  lia.
Qed.
Print Assumptions C81_answered_at_most_once_partial.
Print Assumptions C81_only_what_was_asked.
Print Assumptions C81_never_forgotten_partial.
Print Assumptions C81_no_answer_in_time.
Print Assumptions C81_applied.

(* ** Joining *)
(* Replica 7 does not answer in time and the host is told so (an answer); when 7 connects
   again the enclave asks it anew, is sent the state and becomes a member: a second answer. *)
Definition joined_late : list (event * list nat) :=
  [(ERequest 1 (QJoin 7), [1; 1; 0]%nat); (ETimeout 1, []);
   (EConnected 7, [0; 0]%nat); (EResponse 3 7 true, [1; 1; 7; 0]%nat); (EResponse 4 7 true, [1; 1; 7; 0]%nat);
   (EResponse 5 7 true, [9]%nat); (EAdded, []); (ECommitted 9 [true], [])].
Theorem C81_join_answered_once_refuted :
  exists es, numbered es /\ In (1, QJoin 7) (asked es) /\ answers 1 (run es) = 2%nat.
Proof.
  exists joined_late. split; [|split; [left; reflexivity|vm_compute; reflexivity]].
  unfold numbered. cbn. constructor; [intros []|constructor].
Qed.
Print Assumptions C81_join_answered_once_refuted.

(* A second request to join while the first waits for the connection: the first is
   forgotten.  Whatever happens later it is never answered. *)
Theorem C81_join_never_forgotten_refuted :
  exists es, numbered es /\ In (1, QJoin 7) (asked es) /\ dead (run es) = false /\
    forall es', numbered (es ++ es') -> answers 1 (run (es ++ es')) = 0%nat /\ waiting 1 (run (es ++ es')) = 0%nat.
Proof.
  set (es := [(ERequest 1 (QJoin 7), [1; 0]%nat); (ERequest 2 (QJoin 8), [1; 0]%nat)]).
  exists es. split.
  { unfold numbered. cbn. repeat constructor; cbn; intuition discriminate. }
  split; [left; reflexivity|]. split; [reflexivity|]. intros es' Hn.
  assert (H : free 1 (run (es ++ es')) /\ weight 1 (run (es ++ es')) = O).
  { assert (Hnot : forall q, ~ In (1, q) (asked es')).
    { intros q Hq. unfold numbered in Hn. rewrite asked_app, map_app in Hn. cbn in Hn. inversion Hn as [|? ? Hx _]; subst.
      apply Hx. right. apply (in_map fst) in Hq. exact Hq. }
    clear Hn. induction es' as [|e es' IH] using rev_ind.
    - rewrite app_nil_r. split; [|reflexivity]. cbn. repeat (split; [cbn; try constructor; try discriminate|]); cbn; constructor.
    - destruct IH as (A & B). { intros q Hq. apply (Hnot q). rewrite asked_app. apply in_or_app. left. exact Hq. }
      rewrite app_assoc, run_snoc. destruct (dead (run (es ++ es'))) eqn:Hd.
      + unfold step. rewrite Hd. split; assumption.
      + destruct (a_step 1 e) with (w := run (es ++ es')) as (A' & B'); [|exact Hd|exact A|].
        { intros p Hp. apply (Hnot (QJoin p)). rewrite asked_app. apply in_or_app. right. destruct e as [e c]. cbn in Hp. subst e. left. reflexivity. }
        split; [exact A'|]. rewrite B', B. destruct e as [[] c]; try reflexivity. unfold cnt, asked, counts. cbn.
        destruct (N.eqb_spec tx 1) as [->|]; [|reflexivity]. exfalso. apply (Hnot q). rewrite asked_app. apply in_or_app. right. left. reflexivity. }
  destruct H as (_ & H). rewrite waiting_owed. unfold weight in H. lia.
Qed.
Print Assumptions C81_join_never_forgotten_refuted.

(* A client's request is sent on to the leader, which answers with its place; the entry there is applied. *)
Example C81_example_client :
  let es := [(ERequest 1 QCreate, [1]%nat); (ERequest 2 QNewClient, []); (ERequest 3 QClient, [1; 1; 1; 2; 8; 0]%nat);
             (ERequest 4 (QPing 8), [1; 0]%nat); (EResponse 1 8 true, [1; 5]%nat); (ECommitted 5 [true], []); (ETimeout 2, [])] in
  numbered es /\ said (run es) = [1; 2; 3; 4] /\ dead (run es) = false.
Proof. cbn. split; [|split; reflexivity]. unfold numbered. cbn. repeat constructor; cbn; intuition discriminate. Qed.
