(* What is in the entries that a replica adds to its log: proofs about one call. *)
From Verif Require Import RaftLog Raft RaftSpec RaftChain RaftLogProofs RaftNode UtilProofs RaftShape.

Section New.
Variable sz : sizes.
Variable hmac : bytes -> bytes -> bytes.

(* the entries of l' are those of l, or empty ones *)
Definition dull (l l' : rlog) : Prop := forall i e, at_idx l' i = Some e -> at_idx l i = Some e \/ e_inner e = INone.
Lemma client_request_new x n n' l er : client_request sz hmac x n = Ret (n', (l, er)) ->
  forall i e, at_idx (n_log n') i = Some e -> at_idx (n_log n) i = Some e \/ (i = nxt (n_log n) /\ e_inner e = x).
Proof.
  unfold client_request. assert (Hno : Ret (n, (no_loc, RE_NotLeader)) = Ret (n', (l, er)) ->
    forall i e, at_idx (n_log n') i = Some e -> at_idx (n_log n) i = Some e \/ (i = nxt (n_log n) /\ e_inner e = x)).
  { intros E. injection E as <- _ _. auto. }
  destruct (n_role n) as [| |fs hb rel]; try exact Hno. destruct rel; [exact Hno|]. intros E i e He.
  apply log_append_shape in E as (_ & _ & _ & _ & _ & H & _). destruct (H i e He) as [H1|[H1 ->]]; auto.
Qed.
Lemma change_state_dull ok rnd n n' : change_state sz hmac ok rnd n = Ret n' -> dull (n_log n) (n_log n').
Proof.
  intros E. unfold change_state in E. apply bind_inv in E as (n1 & E1 & E). apply bind_inv in E as (n2 & E2 & E). apply bind_inv in E as (n3 & E3 & E).
  assert (H3 : n_log n3 = n_log n1).
  { rewrite (sl_log _ _ (send_all_still _ _ E3)). destruct ok; [exact (sl_log _ _ (advance_still _ _ E2))|injection E2 as <-; reflexivity]. }
  assert (H4 : n_log n' = n_log n3).
  { destruct (n_role n3) as [| |fs hb rel] eqn:Er; try (injection E as <-; reflexivity). destruct rel; [|injection E as <-; reflexivity].
    unfold try_relinquish in E. rewrite Er in E. destruct (find _ _) as [p|]; [|injection E as <-; reflexivity].
    apply bind_inv in E as (n4 & E4 & E). injection E as <-. exact (sl_log _ _ (reply_still _ _ _ _ E4)). }
  rewrite H4, H3. unfold maybe_become_leader in E1. destruct (n_role n) as [l e|votes e|fs hb rel]; try (injection E1 as <-; intros i x Hx; now left).
  destruct (psize votes <? quorum n); [injection E1 as <-; intros i x Hx; now left|]. cbv zeta in E1.
  apply bind_inv in E1 as ([n1' [l er]] & E1 & E5). injection E5 as <-. intros i x Hx.
  destruct (client_request_new _ _ _ _ _ E1 i x Hx) as [H|[_ H]]; auto.
Qed.
Lemma rstep_new n o n' a : lw n -> rstep sz hmac n o = Ret (n', a) ->
  forall i e, at_idx (n_log n') i = Some e -> at_idx (n_log n) i = Some e \/ from_msg o i e \/ e_inner e = INone \/
    (i = nxt (n_log n) /\ exists ok rnd, o = ORequest ok rnd (e_inner e)).
Proof.
  intros Hw E.
  assert (Hm : forall n2, mids sz hmac n o n2 ->
    forall i e, at_idx (n_log n2) i = Some e -> at_idx (n_log n) i = Some e \/ from_msg o i e \/ e_inner e = INone \/
      (i = nxt (n_log n) /\ exists ok rnd, o = ORequest ok rnd (e_inner e))).
  { intros n2 [H|(n3 & ok & rnd & H & E3)] i e He.
    - destruct (md_log _ _ _ H i e He); auto.
    - destruct (change_state_dull _ _ _ _ E3 i e He) as [H1|H1]; [destruct (md_log _ _ _ H i e H1); auto|auto]. }
  destruct o as [ok rnd|ok1 ok2 rnd from m|id|c|ok rnd|ok rnd x|]; cbn [rstep] in E.
  - apply bind_inv in E as (n1 & E1 & E). injection E as <- _. exact (Hm n1 (tick_mids _ _ _ _ _ _ E1)).
  - apply bind_inv in E as (n1 & E1 & E). injection E as <- _. exact (Hm n1 (receive_mids _ _ _ _ _ _ _ _ _ Hw E1)).
  - apply bind_inv in E as (n1 & E1 & E). injection E as <- _. cbn [set_out n_log]. intros i e He. left. revert He.
    unfold reset_peer in E1. destruct (negb _); [injection E1 as <-; auto|].
    destruct (n_role n) as [| |fs hb rel]; [injection E1 as <-; auto| |].
    + apply bind_inv in E1 as (b & _ & E1). rewrite (sl_log _ _ (reply_still _ _ _ _ E1)). auto.
    + destruct (lookup id fs); injection E1 as <-; auto.
  - injection E as <- _. auto.
  - apply bind_inv in E as (n1 & E1 & E). injection E as <- _. cbn [set_out n_log]. intros i e He. unfold relinquish in E1.
    destruct (n_role n) as [| |fs hb rel]; try (injection E1 as <-; auto). destruct rel; [injection E1 as <-; auto|].
    apply bind_inv in E1 as ([n2 [l er]] & E2 & E1). destruct (n_role n2) as [| |fs2 hb2 rel2]; try discriminate.
    destruct (change_state_dull _ _ _ _ E1 i e He) as [H1|H1]; [|auto]. cbn [set_role n_log] in H1.
    destruct (client_request_new _ _ _ _ _ E2 i e H1) as [H2|[_ H2]]; auto.
  - apply bind_inv in E as ([n1 [l er]] & E1 & E). injection E as <- _. cbn [set_out n_log]. intros i e He. unfold log_request in E1. cbv zeta in E1.
    destruct (match x with IMember g => _ | _ => RE_OK end); try (injection E1 as <- _ _; auto).
    apply bind_inv in E1 as ([n2 [l2 er2]] & E2 & E1). apply bind_inv in E1 as (n3 & E3 & E1). injection E1 as <- _ _.
    destruct (change_state_dull _ _ _ _ E3 i e He) as [H1|H1]; [|auto].
    destruct (client_request_new _ _ _ _ _ E2 i e H1) as [H2|[H2 H3]]; [auto|]. right; right; right. split; [assumption|]. exists ok, rnd. congruence.
  - apply bind_inv in E as ([n1 t] & E1 & E). injection E as <- _. cbn [set_out n_log]. intros i e He. left. revert He. unfold take_committed in E1.
    destruct (_ <=? _); [injection E1 as <- _; auto|]. cbv zeta in E1.
    destruct (at_idx _ _); [|discriminate]. injection E1 as <- _. auto.
Qed.
End New.
