(* C90: to whom a leader that is to give up hands leadership.  Vocabulary:
   HandoverSpec.v, RaftMoveSpec.v, RaftNetSpec.v. *)
From Verif Require Import RaftLog Raft RaftSpec RaftChain RaftNode RaftRun RaftNet RaftNetSpec RaftNetProofs RaftShape RaftMoveSpec RaftMoveProofs
  Membership MembershipSpec MembershipProofs P_Membership P_Raft P_RaftNet UtilProofs P_RaftFresh P_RaftComplete P_RaftMove MemberLogSpec MemberLogProofs P_MemberLog
  StopSpec StopProofs P_Stop HandoverSpec HandoverProofs.

(* C90: in a group whose memberships' quorums overlap, whatever happened before: when
   a replica k tells somebody to take over, it led until that very moment, in the
   term it says; it leads no more; the one it tells is one other replica, a voter;
   and that one had, in that same term, every entry of k's log, as k's log is when k
   gives up *)
Theorem C90_handed_to_one_with_all_entries :
  forall sz hmac M sm evs ev s k to m,
  net_reached sz hmac M sm evs s -> changes_overlap M sm (evs ++ [ev]) -> no_clash s ->
  sends sz hmac s ev k to m -> m_body m = TimeoutNow ->
  exists q n A n' A',
    to = Some q /\ q <> k /\
    lookup k (w_now s) = Some (n, A) /\ is_leader n = true /\ n_term n = m_term m /\
    lookup k (w_now (net_step sz hmac s ev)) = Some (n', A') /\ is_leader n' = false /\ n_term n' = m_term m /\
    In q (m_voting (mship n')) /\ prefix A A' /\
    (A' = [] \/ exists n1 A1, was s q n1 A1 /\ n_term n1 = m_term m /\ prefix A' A1).
Proof.
  intros sz hmac M sm evs ev s k to m Hr Hc Hn Hs Eb.
  destruct (reached_honest _ _ _ _ _ _ _ Hr Hc Hn k to m Hs) as (n & A & n' & A' & H1 & H2 & H3 & H4).
  destruct (H4 Eb) as (X1 & X2 & X3 & X4 & X5 & q & X6 & X7 & X8 & X9). cbn [fst snd] in *.
  exists q, n, A, n', A'. rewrite H3 in X7. rewrite X1, X3. do 10 (split; [assumption || reflexivity|]). exact X9.
Qed.

(* C90: while a leader waits to give up it takes no requests *)
Theorem C90_takes_no_requests_meanwhile :
  forall sz hmac n ok rnd x n' a fs hb,
  n_role n = Leader fs hb true -> rstep sz hmac n (ORequest ok rnd x) = Ret (n', a) ->
  (exists l, a_loc a = Some (l, RE_NotLeader)) /\ n_log n' = n_log n.
Proof.
  intros sz hmac n ok rnd x n' a fs hb Er E. cbn [rstep] in E. apply bind_inv in E as ([n3 r] & E3 & E). injection E as <- <-. cbn [a_loc].
  unfold log_request in E3. rewrite Er in E3. cbv zeta in E3.
  assert (Hgo : (let* '(n1, res) := client_request sz hmac x n in let* n2 := change_state sz hmac ok rnd n1 in Ret (n2, res)) = Ret (n3, r) ->
    (exists l, Some r = Some (l, RE_NotLeader)) /\ n_log n3 = n_log n).
  { unfold client_request. rewrite Er. intros X. apply bind_inv in X as ([n1 r1] & X1 & X). injection X1 as <- <-. apply bind_inv in X as (n2 & X2 & X).
    injection X as <- <-. split; [eauto|]. unfold change_state in X2. apply bind_inv in X2 as (m1 & Y1 & X2). unfold maybe_become_leader in Y1. rewrite Er in Y1. injection Y1 as <-.
    apply bind_inv in X2 as (m2 & Y2 & X2). apply bind_inv in X2 as (m3 & Y3 & X2). apply send_all_still in Y3.
    assert (Y4 : n_log m3 = n_log n).
    { rewrite (sl_log _ _ Y3). destruct ok; [exact (sl_log _ _ (advance_still _ _ Y2))|now injection Y2 as <-]. }
    assert (Y5 : try_relinquish rnd m3 = Ret n2 -> n_log n2 = n_log m3).
    { unfold try_relinquish. destruct (n_role m3); try (intros X; now injection X as <-). destruct (find _ _); [|intros X; now injection X as <-].
      intros X. apply bind_inv in X as (m4 & X4 & X). injection X as <-. apply reply_still in X4. exact (sl_log _ _ X4). }
    destruct (n_role m3) as [| |fs3 hb3 rel3]; [injection X2 as <-; exact Y4|injection X2 as <-; exact Y4|].
    destruct rel3; [rewrite (Y5 X2); exact Y4|injection X2 as <-; exact Y4]. }
  destruct x; try exact (Hgo E3). injection E3 as <- <-. split; [eauto|reflexivity].
Qed.

(* --- examples -------------------------------------------------------------------- *)
Definition then_ev (x : list event * net) (ev : event) : list event * net := (fst x ++ [ev], net_step toy_sizes toy_hmac (snd x) ev).
Definition then_cmds (x : list event * net) (cs : list cmd) : list event * net := fold_left (fun x c => then_ev x (event_of (snd x) c)) cs x.
Lemma then_ev_reached M sm x ev : net_reached toy_sizes toy_hmac M sm (fst x) (snd x) -> net_reached toy_sizes toy_hmac M sm (fst (then_ev x ev)) (snd (then_ev x ev)).
Proof.
  intros (group & L0 & xs & s0 & H1 & H2 & H3). exists group, L0, xs, s0. split; [assumption|]. split; [assumption|]. unfold then_ev; cbn [fst snd].
  unfold net_run in *. rewrite fold_left_app, <- H3. reflexivity.
Qed.
Lemma then_cmds_reached M sm cs : forall x, net_reached toy_sizes toy_hmac M sm (fst x) (snd x) -> net_reached toy_sizes toy_hmac M sm (fst (then_cmds x cs)) (snd (then_cmds x cs)).
Proof. induction cs as [|c cs IH]; intros x H; [exact H|]. apply (IH (then_ev x (event_of (snd x) c))). now apply then_ev_reached. Qed.
Definition hands_b (s : net) (ev : event) (k q : bytes) : bool :=
  existsb (fun x => beq (fst x) k && match fst (snd x) with Some p => beq p q | None => false end
                    && match m_body (snd (snd x)) with TimeoutNow => true | _ => false end)%bool
    (skipn (length (w_soup s)) (w_soup (net_step toy_sizes toy_hmac s ev))).
Lemma soup_grows sz hmac s ev : exists sent, w_soup (net_step sz hmac s ev) = w_soup s ++ sent.
Proof.
  assert (Hs : exists sent, w_soup s = w_soup s ++ sent) by (exists []; now rewrite app_nil_r).
  assert (Ha : forall k o, exists sent, w_soup (act sz hmac k o s) = w_soup s ++ sent).
  { intros k o. unfold act. destruct (lookup _ _) as [[n A]|]; [|exact Hs]. destruct (rstep _ _ _ _) as [[n' a]|]; [eexists; reflexivity|exact Hs]. }
  destruct ev as [k o|k j ok1 ok2 rnd|k j]; cbn [net_step].
  - destruct o; auto.
  - destruct (nth_error _ _) as [[from [to m]]|]; [|exact Hs]. destruct (match to with Some p => _ | None => _ end); auto.
  - destruct (nth_error _ _) as [[k' x]|]; [|exact Hs]. destruct (beq _ _); exact Hs.
Qed.
Lemma hands_b_sound s ev k q : hands_b s ev k q = true -> exists m, sends toy_sizes toy_hmac s ev k (Some q) m /\ m_body m = TimeoutNow.
Proof.
  unfold hands_b. intros H. destruct (soup_grows toy_sizes toy_hmac s ev) as [sent E]. apply existsb_exists in H as ([k1 [to m]] & Hin & H).
  rewrite E, skipn_app, skipn_all, Nat.sub_diag in Hin. cbn [app skipn fst snd] in *. apply andb_prop in H as [H H3]. apply andb_prop in H as [H1 H2].
  apply beq_eq in H1. subst k1. destruct to as [p|]; [|discriminate]. apply beq_eq in H2. subst p. exists m. split; [exists sent; auto|]. destruct (m_body m); congruence.
Qed.
(* 1 is elected, takes a request, is asked to give up, and does so when 2 has told it
   that it holds all of 1's log *)
Definition x_led90 : list event * net := run_cmds (x_start x_group3 1 1000 [1; 2; 3]) ([Tick 1; Pass 1 2; Pass 2 1; Pass 1 3; Pass 3 1; Ask 1 (IData [42])] ++ both 3 1 2).
Definition x_asked90 : list event * net := then_ev x_led90 (ECall (pid 1) (ORelinquish true 1)).
Definition x_net90 : list event * net := then_cmds x_asked90 [Pass 1 2].
Definition x_last90 : event := event_of (snd x_net90) (Pass 2 1).
Lemma x_reached90 : net_reached toy_sizes toy_hmac x_group3 1 (fst x_net90) (snd x_net90).
Proof.
  apply then_cmds_reached, then_ev_reached. apply run_cmds_reached; [apply x_may3; reflexivity|eexists; vm_compute; reflexivity].
Qed.
Example C90_meets :
  net_reached toy_sizes toy_hmac x_group3 1 (fst x_net90) (snd x_net90) /\ changes_overlap x_group3 1 (fst x_net90 ++ [x_last90]) /\ no_clash (snd x_net90) /\
  (exists m, sends toy_sizes toy_hmac (snd x_net90) x_last90 (pid 1) (Some (pid 2)) m /\ m_body m = TimeoutNow) /\
  (* the log handed over is not empty *)
  match lookup (pid 1) (w_now (net_step toy_sizes toy_hmac (snd x_net90) x_last90)) with Some (_, A) => length A = 3%nat | None => False end.
Proof.
  split; [apply x_reached90|]. split; [apply x_fixed88; vm_compute; reflexivity|]. split; [apply no_clash_b_sound; vm_compute; reflexivity|].
  split; [apply hands_b_sound; vm_compute; reflexivity|]. vm_compute. reflexivity.
Qed.
(* ... and before that it refuses requests *)
Example C90_meets_waiting :
  match lookup (pid 1) (w_now (snd x_net90)) with
  | Some (n, _) => match n_role n, rstep toy_sizes toy_hmac n (ORequest true 1 (IData [43])) with Leader _ _ true, Ret _ => True | _, _ => False end
  | None => False
  end.
Proof. vm_compute. exact I. Qed.

Print Assumptions C90_handed_to_one_with_all_entries.
Print Assumptions C90_takes_no_requests_meanwhile.
