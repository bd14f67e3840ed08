(* Votes, and requests for votes: proofs about one call of a replica. *)
From Verif Require Import RaftLog Raft RaftSpec RaftChain RaftLogProofs RaftNode RaftShape UtilProofs.

Definition asks (x : option bytes * rmsg) : Prop := exists li lt h, m_body (snd x) = VoteReq li lt h.
(* no vote is given and none is asked for *)
Record vq (n n' : node) : Prop := MkVq {
  vq_voted : n_voted n' = n_voted n;
  vq_term : n_term n' = n_term n;
  vq_out : forall x, In x (n_out n') -> asks x -> In x (n_out n)
}.
Lemma vq_refl n : vq n n. Proof. constructor; auto. Qed.
Lemma vq_trans n n1 n2 : vq n n1 -> vq n1 n2 -> vq n n2.
Proof. intros [] []; constructor; try congruence; auto. Qed.
Lemma vq_role r n : vq n (set_role r n). Proof. constructor; auto. Qed.
Lemma add_msg_vq to g t b n n' : ~ asks (to, RMsg g t b) -> add_msg to (RMsg g t b) n = Ret n' -> vq n n'.
Proof.
  intros Hb E. destruct (add_msg_cases _ _ _ _ E) as [->| ->]; [apply vq_refl|]. constructor; auto. cbn [set_out n_out].
  intros x Hx Ha. apply in_app_or in Hx as [Hx|[<-|[]]]; [assumption|contradiction].
Qed.
Definition plain (b : rbody) : Prop := match b with VoteReq _ _ _ => False | _ => True end.
Lemma reply_vq to b n n' : plain b -> reply to b n = Ret n' -> vq n n'.
Proof. intros Hb. apply add_msg_vq. intros (li & lt & h & E). cbn in E. subst b. exact Hb. Qed.
Lemma hmc_vq n : vq n (handle_membership_change n).
Proof. unfold handle_membership_change. destruct (n_role n); try apply vq_refl. apply vq_role. Qed.
Lemma members_vq m u n : vq n (set_members m u n). Proof. constructor; auto. Qed.
Lemma refresh_vq n : vq n (refresh_members n).
Proof.
  unfold refresh_members. destruct (pop_committed _ _ _) as [m u]. destruct (Nat.eqb _ _); [apply vq_refl|].
  eapply vq_trans; [apply members_vq|apply hmc_vq].
Qed.
Lemma append_entries_vq peer n n' : append_entries peer n = Ret n' -> vq n n'.
Proof.
  unfold append_entries. destruct (n_role n) as [| |fs hb rel]; try (intros E; injection E as <-; apply vq_refl).
  destruct (lookup peer fs) as [f|]; [|intros E; injection E as <-; apply vq_refl]. cbv zeta.
  repeat match goal with |- (if ?b then _ else _) = _ -> _ => destruct b; [intros E; injection E as <-; apply vq_refl|] end.
  intros E. eapply vq_trans; [|eapply reply_vq; [|exact E]; exact I]. apply vq_role.
Qed.
Lemma send_all_vq n n' : send_all n = Ret n' -> vq n n'.
Proof.
  unfold send_all. generalize (n_me n) as me. intros me. revert n'. induction (m_all (mship n)) as [|p ps IH] using rev_ind; intros n' E.
  - injection E as <-. apply vq_refl.
  - rewrite fold_left_app in E. cbn [fold_left] in E. apply bind_inv in E as (m & E1 & E2). eapply vq_trans; [exact (IH m E1)|].
    destruct (beq p me); [injection E2 as <-; apply vq_refl|exact (append_entries_vq _ _ _ E2)].
Qed.
Lemma mark_vq n : vq n (mark_update n).
Proof. unfold mark_update. destruct (n_role n); try apply vq_refl. apply vq_role. Qed.
Lemma advance_vq n n' : advance_commit n = Ret n' -> vq n n'.
Proof.
  unfold advance_commit. destruct (n_role n) as [| |fs hb rel]; try (intros E; injection E as <-; apply vq_refl).
  intros E. apply bind_inv in E as (p & _ & E). cbv zeta in E. apply bind_inv in E as (c & _ & E). injection E as <-.
  set (n1 := if n_promise n <? p then set_promise p n else n).
  assert (H1 : vq n n1) by (unfold n1; destruct (_ <? _); constructor; auto).
  set (n2 := if n_commit n1 <? c then refresh_members (set_commit c n1) else n1).
  assert (H2 : vq n1 n2).
  { unfold n2. destruct (n_commit n1 <? c); [|apply vq_refl]. eapply vq_trans; [|apply refresh_vq]. constructor; auto. }
  destruct (_ || _)%bool; [eapply vq_trans; [|apply mark_vq]|]; eapply vq_trans; eassumption.
Qed.
Lemma seen_now_vq from n : vq n (seen_now from n).
Proof. unfold seen_now. destruct (n_role n) as [| |fs hb rel]; try apply vq_refl. destruct (lookup from fs); [apply vq_role|apply vq_refl]. Qed.
Lemma add_uncommitted_vq idx m n n' : add_uncommitted idx m n = Ret n' -> vq n n'.
Proof.
  unfold add_uncommitted. destruct (n_unc n) as [|u us].
  - intros E; injection E as <-. eapply vq_trans; [apply members_vq|apply hmc_vq].
  - destruct (_ <? idx); [|discriminate]. intros E; injection E as <-. eapply vq_trans; [apply members_vq|apply hmc_vq].
Qed.

Section Votes.
Variable sz : sizes.
Variable hmac : bytes -> bytes -> bytes.

Lemma log_append_vq e n n' l er : log_append sz e n = Ret (n', (l, er)) -> vq n n'.
Proof.
  unfold log_append. cbv zeta.
  assert (Hl : forall l0, vq n (set_log l0 n)) by (constructor; auto).
  destruct (e_inner e) as [|d|g|m]; try (intros E; apply bind_inv in E as ([l0 er0] & _ & E); destruct er0; injection E as <- _ _; apply Hl).
  destruct (from_proto g) as [m er1]. destruct er1; try (intros E; injection E as <- _ _; apply vq_refl).
  intros E; apply bind_inv in E as ([l0 er0] & _ & E). destruct er0; try (injection E as <- _ _; apply Hl).
  apply bind_inv in E as (n2 & E2 & E). injection E as <- _ _. eapply vq_trans; [apply Hl|exact (add_uncommitted_vq _ _ _ _ E2)].
Qed.
Lemma client_request_vq x n n' l er : client_request sz hmac x n = Ret (n', (l, er)) -> vq n n'.
Proof.
  unfold client_request. destruct (n_role n) as [| |fs hb rel]; try (intros E; injection E as <- _ _; apply vq_refl).
  destruct rel; [intros E; injection E as <- _ _; apply vq_refl|]. apply log_append_vq.
Qed.
Lemma change_state_vq ok rnd n n' : change_state sz hmac ok rnd n = Ret n' -> vq n n'.
Proof.
  intros E. unfold change_state in E. apply bind_inv in E as (n1 & E1 & E). apply bind_inv in E as (n2 & E2 & E). apply bind_inv in E as (n3 & E3 & E).
  assert (H1 : vq n n1).
  { unfold maybe_become_leader in E1. destruct (n_role n) as [l e|votes e|fs hb rel]; try (injection E1 as <-; apply vq_refl).
    destruct (psize votes <? quorum n); [injection E1 as <-; apply vq_refl|]. cbv zeta in E1. apply bind_inv in E1 as ([n1' [l er]] & E1 & E5).
    injection E5 as <-. eapply vq_trans; [|exact (client_request_vq _ _ _ _ _ E1)]. apply vq_role. }
  assert (H2 : vq n1 n2) by (destruct ok; [exact (advance_vq _ _ E2)|injection E2 as <-; apply vq_refl]).
  eapply vq_trans; [exact H1|]. eapply vq_trans; [exact H2|]. eapply vq_trans; [exact (send_all_vq _ _ E3)|].
  destruct (n_role n3) as [| |fs hb rel] eqn:Er; try (injection E as <-; apply vq_refl). destruct rel; [|injection E as <-; apply vq_refl].
  unfold try_relinquish in E. rewrite Er in E. destruct (find _ _) as [p|]; [|injection E as <-; apply vq_refl].
  apply bind_inv in E as (n4 & E4 & E). injection E as <-. eapply vq_trans; [exact (reply_vq _ TimeoutNow _ _ I E4)|apply vq_role].
Qed.
Lemma change_state_cand ok rnd n n' : change_state sz hmac ok rnd n = Ret n' -> cand n = true -> cand n' = true \/ is_leader n' = true.
Proof.
  intros E C. unfold change_state in E. apply bind_inv in E as (n1 & E1 & E). apply bind_inv in E as (n2 & E2 & E). apply bind_inv in E as (n3 & E3 & E).
  assert (H3 : still n1 n3).
  { eapply still_trans; [|exact (send_all_still _ _ E3)]. destruct ok; [exact (advance_still _ _ E2)|injection E2 as <-; apply still_refl]. }
  assert (H1 : kind n1 = KC \/ kind n1 = KL false).
  { apply cand_kind in C. unfold maybe_become_leader in E1. unfold kind in C. destruct (n_role n) as [l e|votes e|fs hb rel] eqn:Er; try discriminate.
    destruct (psize votes <? quorum n); [injection E1 as <-; left; unfold kind; now rewrite Er|]. cbv zeta in E1.
    apply bind_inv in E1 as ([n1' [l er]] & E1 & E5). injection E5 as <-. apply client_request_shape in E1 as (X1 & _). right. rewrite X1. reflexivity. }
  destruct H3 as [K3 _ _ _ _]. rewrite <- K3 in H1.
  assert (Hn : n' = n3) by (destruct H1 as [H1|H1]; unfold kind in H1; destruct (n_role n3) as [| |fs hb rel]; try discriminate; try (destruct rel; try discriminate); injection E as <-; reflexivity).
  rewrite Hn. destruct H1 as [H1|H1]; [left; now apply cand_kind|right; apply leader_kind; eauto].
Qed.
Lemma process_vq es : forall idx p n n' p', process_entries sz hmac es idx p n = Ret (n', p') -> vq n n'.
Proof.
  induction es as [|e es IH]; intros idx p n n' p' E; cbn [process_entries] in E; [injection E as <- _; apply vq_refl|].
  set (conflict := (negb (term_at (n_log n) idx =? 0) && negb (term_at (n_log n) idx =? e_term e))%bool) in *.
  destruct (conflict && ((idx <=? n_commit n) || (idx <=? n_promise n)))%bool; [injection E as <- _; apply vq_refl|].
  destruct (if conflict then _ else Some n) as [n1|] eqn:En1; [|injection E as <- _; apply vq_refl].
  assert (H1 : vq n n1).
  { destruct conflict; [|injection En1 as <-; apply vq_refl]. destruct (cancel_from idx (n_log n)) as [l r]. destruct r; try discriminate. injection En1 as <-.
    eapply vq_trans; [|apply refresh_vq]. constructor; auto. }
  eapply vq_trans; [exact H1|]. destruct (idx =? last_idx (n_log n1) + 1); [|exact (IH _ _ _ _ _ E)].
  destruct (negb (beq (next_hash hmac (n_log n1) (e_term e) (e_inner e)) (e_hash e))); [injection E as <- _; apply vq_refl|]. apply bind_inv in E as ([n2 [l er]] & E1 & E).
  pose proof (log_append_vq _ _ _ _ _ E1) as H2. destruct er; try (injection E as <- _; exact H2). eapply vq_trans; [exact H2|exact (IH _ _ _ _ _ E)].
Qed.
Lemma append_request_vq ok rnd t prev pterm commit es promise from n n' :
  handle_append_request sz hmac ok rnd t prev pterm commit es promise from n = Ret n' -> vq n n'.
Proof.
  unfold handle_append_request. cbv zeta. destruct (n_term n <? t); [intros E; injection E as <-; apply vq_refl|].
  destruct (t <? n_term n); [apply reply_vq; exact I|].
  destruct (n_role n) as [| |fs hb rel] eqn:Er; [| |intros E; injection E as <-; apply vq_refl].
  all: destruct (negb _); [intros E; eapply vq_trans; [apply vq_role|]; eapply reply_vq; [|exact E]; exact I|].
  all: intros E; apply bind_inv in E as ([n1 p] & E1 & E); apply process_vq in E1; eapply vq_trans; [apply vq_role|]; eapply vq_trans; [exact E1|].
  all: destruct (_ && negb ok)%bool; [injection E as <-; apply vq_refl|].
  all: set (n2 := if n_promise n1 <? N.min promise p then set_promise (N.min promise p) n1 else n1) in *.
  all: assert (H2 : vq n1 n2) by (unfold n2; destruct (_ <? _); constructor; auto).
  all: set (n3 := if n_commit n2 <? N.min commit p then refresh_members (set_commit (N.min commit p) n2) else n2) in *.
  all: assert (H3 : vq n2 n3) by (unfold n3; destruct (n_commit n2 <? N.min commit p); [|apply vq_refl]; eapply vq_trans; [|apply refresh_vq]; constructor; auto).
  all: eapply vq_trans; [exact H2|]; eapply vq_trans; [exact H3|]; eapply reply_vq; [|exact E]; exact I.
Qed.
Lemma append_response_vq t s midx mlast mp mh from n n' : handle_append_response t s midx mlast mp mh from n = Ret n' -> vq n n'.
Proof.
  unfold handle_append_response. destruct (negb _); [intros E; injection E as <-; apply vq_refl|].
  destruct (n_role n) as [| |fs hb rel]; try (intros E; injection E as <-; apply vq_refl).
  destruct (lookup from fs) as [f|]; [|intros E; injection E as <-; apply vq_refl]. destruct s; [|intros E; injection E as <-; apply vq_role].
  cbv zeta. destruct (match at_idx (n_log n) midx with Some _ => _ | None => _ end); [|discriminate]. intros E; injection E as <-; apply vq_role.
Qed.

(* --- a whole call ----------------------------------------------------------- *)
(* what comes out of an election that starts, or of one that is repeated *)
Definition req_of (n : node) (m : rmsg) : Prop :=
  forall li lt h, m_body m = VoteReq li lt h -> li = last_idx (n_log n) /\ lt = last_term (n_log n).
Lemma election_votes rnd n n' : n_out n = [] -> election_timeout rnd n = Ret n' ->
  vq n n' \/ (n_term n' = n_term n + 1 /\ n_voted n' = Some (n_me n) /\ cand n' = true /\ is_leader n = false /\
    forall to m, In (to, m) (n_out n') -> m_term m = n_term n' /\ req_of n m).
Proof.
  intros Ho E. unfold election_timeout in E. destruct (negb (voting n)).
  - injection E as <-. left. destruct (n_role n); try apply vq_refl. apply vq_role.
  - assert (Hrun : is_leader n = false -> (let* b := vote_request (set_role (Candidate [n_me n] rnd) (set_voted (Some (n_me n)) (set_term (n_term n + 1) n))) in
        add_msg None (RMsg (n_group n) (n_term n + 1) b) (set_role (Candidate [n_me n] rnd) (set_voted (Some (n_me n)) (set_term (n_term n + 1) n)))) = Ret n' ->
      n_term n' = n_term n + 1 /\ n_voted n' = Some (n_me n) /\ cand n' = true /\ is_leader n = false /\
      forall to m, In (to, m) (n_out n') -> m_term m = n_term n' /\ req_of n m).
    { intros Hl E1. cbn [vote_request set_role n_role bind] in E1. destruct (add_msg_cases _ _ _ _ E1) as [->| ->].
      - cbn [set_role set_voted set_term n_term n_voted n_role cand n_out]. repeat split; auto; rewrite Ho in *; contradiction.
      - cbn [set_out set_role set_voted set_term n_term n_voted n_role cand n_out]. repeat split; auto; rewrite Ho in H; cbn in H; destruct H as [H|[]]; injection H as _ <-; [reflexivity| |];
          cbn in H0; injection H0 as <- <- _; reflexivity. }
    destruct (n_role n) eqn:Er; [right; apply Hrun; [unfold is_leader; now rewrite Er|exact E]|right; apply Hrun; [unfold is_leader; now rewrite Er|exact E]|]. injection E as <-. left. apply vq_refl.
Qed.
Record votes (n : node) (o : rop) (n' : node) (out : list (option bytes * rmsg)) : Prop := MkVotes {
  vt_req : forall to m li lt h, In (to, m) out -> m_body m = VoteReq li lt h ->
    m_term m = n_term n' /\ li = last_idx (n_log n) /\ lt = last_term (n_log n) /\
    (n_term n < n_term n' \/ (n_term n' = n_term n /\ cand n = true)) /\ (cand n' = true \/ is_leader n' = true);
  vt_vote : forall c, n_voted n' = Some c -> c = n_me n \/ (n_term n' = n_term n /\ n_voted n = Some c) \/
    exists ok1 ok2 rnd m li lt h, o = OReceive ok1 ok2 rnd c m /\ m_body m = VoteReq li lt h /\ m_term m = n_term n' /\ up_to_date (n_log n') li lt;
  vt_recv : forall ok1 ok2 rnd from m, o = OReceive ok1 ok2 rnd from m -> (n_log n' = n_log n /\ n_term n' = n_term n) \/ m_term m <= n_term n'
}.
Lemma vq_votes n o n' : n_out n = [] -> vq n n' -> (forall ok1 ok2 rnd from m, o <> OReceive ok1 ok2 rnd from m) -> votes n o n' (n_out n').
Proof.
  intros Ho [V1 V2 V3] Hno. constructor.
  - intros to m li lt h Hin Hb. exfalso. rewrite Ho in V3. apply (V3 _ Hin). exists li, lt, h. exact Hb.
  - intros c Hc. right; left. split; congruence.
  - intros ok1 ok2 rnd from m Ho'. destruct (Hno _ _ _ _ _ Ho').
Qed.
(* an election in a node n1 that has the log of n, then the rest of the call *)
Lemma election_rest ok rnd n n1 n2 n' : n_out n1 = [] -> n_log n1 = n_log n -> n_me n1 = n_me n -> n_term n <= n_term n1 ->
  election_timeout rnd n1 = Ret n2 -> change_state sz hmac ok rnd n2 = Ret n' ->
  vq n1 n' \/ (n_term n < n_term n' /\ n_term n1 <= n_term n' /\ n_voted n' = Some (n_me n) /\ (cand n' = true \/ is_leader n' = true) /\
    forall to m li lt h, In (to, m) (n_out n') -> m_body m = VoteReq li lt h -> m_term m = n_term n' /\ li = last_idx (n_log n) /\ lt = last_term (n_log n)).
Proof.
  intros Ho Hl Hme Ht E1 E2. pose proof (change_state_vq _ _ _ _ E2) as [W1 W2 W3].
  destruct (election_votes _ _ _ Ho E1) as [H|(H1 & H2 & H3 & H4 & H5)]; [left; eapply vq_trans; [exact H|now constructor]|right].
  split; [lia|]. split; [lia|]. split; [congruence|]. split; [exact (change_state_cand _ _ _ _ E2 H3)|].
  intros to m li lt h Hin Hb. destruct (H5 to m) as [X1 X2]; [apply W3; [assumption|exists li, lt, h; exact Hb]|].
  destruct (X2 _ _ _ Hb) as [Y1 Y2]. rewrite <- Hl. split; [congruence|auto].
Qed.
Lemma update_term_votes rnd t n : n_out (update_term rnd t n) = n_out n /\ n_me (update_term rnd t n) = n_me n /\
  t <= n_term (update_term rnd t n) /\ n_term n <= n_term (update_term rnd t n) /\
  ((n_term n < n_term (update_term rnd t n) /\ n_voted (update_term rnd t n) = None) \/ update_term rnd t n = n).
Proof. unfold update_term. destruct (t <=? n_term n) eqn:E; cbn; repeat split; auto; try lia. left. split; [lia|reflexivity]. Qed.
Lemma receive_votes ok1 ok2 rnd m from n n' : n_out n = [] -> (is_leader n = true \/ cand n = true -> n_voted n = Some (n_me n)) ->
  receive sz hmac ok1 ok2 rnd m from n = Ret n' -> votes n (OReceive ok1 ok2 rnd from m) n' (n_out n').
Proof.
  intros Ho Hself E. unfold receive in E. apply bind_inv in E as (er & _ & E).
  assert (Hsame : votes n (OReceive ok1 ok2 rnd from m) n (n_out n)).
  { constructor; rewrite ?Ho; [intros ? ? ? ? ? []| |]; auto. }
  destruct er; try (injection E as <-; exact Hsame). cbv zeta in E. clear Hsame.
  destruct (update_term_facts rnd (m_term m) n) as (U1 & U2 & _ & _ & U5). destruct (update_term_votes rnd (m_term m) n) as (O1 & Me1 & T1 & T2 & T3).
  pose proof (seen_now_vq from (update_term rnd (m_term m) n)) as Hv. pose proof (seen_now_still from (update_term rnd (m_term m) n)) as Hs.
  assert (Hme : n_me (seen_now from (update_term rnd (m_term m) n)) = n_me n).
  { rewrite <- Me1. unfold seen_now. destruct (n_role _); auto. destruct (lookup from fs); auto. }
  assert (Hout : n_out (seen_now from (update_term rnd (m_term m) n)) = []).
  { rewrite <- Ho, <- O1. unfold seen_now. destruct (n_role _); auto. destruct (lookup from fs); auto. }
  set (n1 := seen_now from (update_term rnd (m_term m) n)) in *.
  assert (Hlog : n_log n1 = n_log n) by (rewrite (sl_log _ _ Hs); exact U1).
  assert (Hv1 : forall c, n_voted n1 = Some c -> n_term n1 = n_term n /\ n_voted n = Some c).
  { intros c Hc. rewrite (vq_voted _ _ Hv) in Hc. rewrite (vq_term _ _ Hv). destruct T3 as [[_ T3]|T3]; [congruence|]. rewrite T3 in *. auto. }
  assert (Ht1 : m_term m <= n_term n1 /\ n_term n <= n_term n1) by (rewrite (vq_term _ _ Hv); auto).
  apply bind_inv in E as (n2 & E2 & E).
  assert (Hquiet : vq n1 n' -> votes n (OReceive ok1 ok2 rnd from m) n' (n_out n')).
  { intros [V1 V2 V3]. constructor.
    - intros to m' li lt h Hin Hb. exfalso. rewrite Hout in V3. apply (V3 _ Hin). exists li, lt, h. exact Hb.
    - intros c Hc. right; left. rewrite V1 in Hc. apply Hv1 in Hc as [X1 X2]. split; congruence.
    - intros ? ? ? ? m' Eo. injection Eo as _ _ _ _ <-. right. rewrite V2. apply Ht1. }
  pose proof (change_state_vq _ _ _ _ E) as Hcs.
  assert (Hmid : vq n1 n2 -> votes n (OReceive ok1 ok2 rnd from m) n' (n_out n')) by (intros H; apply Hquiet; eapply vq_trans; eassumption).
  destruct (m_body m) as [lidx lterm h|g|prev pterm commit es promise ph|sc midx mlast mp mh| |] eqn:Eb.
  - unfold handle_vote_request in E2. cbv zeta in E2. destruct (n_term n1 <? m_term m); [injection E2 as <-; apply Hmid, vq_refl|].
    destruct (((m_term m =? n_term n1) && _ && match n_voted n1 with None => true | Some v => beq v from end)%bool) eqn:Eg.
    2:{ apply Hmid. exact (reply_vq _ (VoteResp _) _ _ I E2). }
    apply andb_prop in Eg as [Eg1 Eg3]. apply andb_prop in Eg1 as [Eg1 Eg2].
    set (n1' := set_role _ (set_voted (Some from) n1)) in *.
    pose proof (reply_vq _ (VoteResp _) _ _ I E2) as [V1 V2 V3]. destruct Hcs as [C1 C2 C3].
    assert (Hv' : n_voted n' = Some from) by (rewrite C1, V1; reflexivity).
    assert (Ht' : n_term n' = n_term n1) by (rewrite C2, V2; reflexivity).
    constructor.
    + intros to m' li lt h' Hin Hb. exfalso.
      assert (Ha : asks (to, m')) by (exists li, lt, h'; exact Hb). specialize (V3 _ (C3 _ Hin Ha) Ha). unfold n1' in V3; cbn in V3. rewrite Hout in V3. exact V3.
    + intros c Hc. rewrite Hv' in Hc. injection Hc as <-. destruct (list_eq_dec N.eq_dec from (n_me n)) as [->|Hd]; [now left|].
      right; right. exists ok1, ok2, rnd, m, lidx, lterm, h. split; [reflexivity|]. split; [assumption|]. split; [lia|].
      assert (Hf : is_leader n1 = false /\ cand n1 = false).
      { assert (Hx : (is_leader n1 = true \/ cand n1 = true) -> False).
        { intros X. assert (Y : n_voted n1 = Some (n_me n)).
          { rewrite (vq_voted _ _ Hv). rewrite (still_leader _ _ Hs), (still_cand _ _ Hs) in X. destruct U5 as [U5|U5].
            - exfalso. destruct X as [X|X]; [apply leader_kind in X as [r X]; congruence|apply cand_kind in X; congruence].
            - rewrite U5 in *. auto. }
          rewrite Y in Eg3. apply beq_eq in Eg3. congruence. }
        destruct (is_leader n1), (cand n1); auto; exfalso; auto. }
      assert (Hlog' : n_log n' = n_log n).
      { assert (L2 : n_log n2 = n_log n1) by (apply reply_still in E2 as [_ _ X _ _]; exact X).
        assert (K2 : kind n2 = KF).
        { apply reply_still in E2 as [X _ _ _ _]. rewrite X. unfold n1', kind; cbn [set_role n_role]. destruct Hf as [F1 F2]. unfold is_leader, cand in F1, F2. destruct (n_role n1); congruence. }
        destruct (change_state_shape _ _ _ _ _ _ E) as [_ _ G3 G4 _].
        assert (Hn : is_leader n2 = false /\ cand n2 = false) by (unfold kind, is_leader, cand in *; destruct (n_role n2); try discriminate; auto).
        destruct Hn as [N1 N2]. destruct G3 as [G3|[G3|G3]]; [congruence| |congruence]. destruct (G4 G3); congruence. }
      rewrite Hlog', <- Hlog. unfold up_to_date. apply orb_prop in Eg2 as [H|H]; [left; lia|right]. apply andb_prop in H as [? ?]. lia.
    + intros ? ? ? ? m' Eo. injection Eo as _ _ _ _ <-. right. rewrite Ht'. apply Ht1.
  - destruct (m_term m <? n_term n1); [injection E2 as <-; apply Hmid, vq_refl|]. injection E2 as <-. apply Hmid.
    unfold handle_vote_response. destruct (negb _); [apply vq_refl|]. destruct (n_role n1); try apply vq_refl. destruct (g && _)%bool; [apply vq_role|apply vq_refl].
  - apply Hmid. exact (append_request_vq _ _ _ _ _ _ _ _ _ _ _ E2).
  - destruct (m_term m <? n_term n1); [injection E2 as <-; apply Hmid, vq_refl|]. apply Hmid. exact (append_response_vq _ _ _ _ _ _ _ _ _ E2).
  - destruct (m_term m <? n_term n1); [injection E2 as <-; apply Hmid, vq_refl|].
    destruct (election_rest ok2 rnd n n1 n2 n' Hout Hlog Hme (proj2 Ht1) E2 E) as [H|(H1 & H2 & H3 & H4 & H5)]; [now apply Hquiet|].
    constructor.
    + intros to m' li lt h Hin Hb. destruct (H5 _ _ _ _ _ Hin Hb) as (X1 & X2 & X3). auto 7.
    + intros c Hc. left. congruence.
    + intros ? ? ? ? m' Eo. injection Eo as _ _ _ _ <-. right. lia.
  - injection E2 as <-. apply Hmid, vq_refl.
Qed.
Lemma rstep_votes n o n' a : n_out n = [] -> (is_leader n = true \/ cand n = true -> n_voted n = Some (n_me n)) ->
  rstep sz hmac n o = Ret (n', a) -> votes n o n' (a_sent a).
Proof.
  intros Ho Hself E.
  assert (Hout : forall n1 l t, votes n o n1 (n_out n1) -> sent n1 l t = (n', a) -> votes n o n' (a_sent a)).
  { intros n1 l t H Es. injection Es as <- <-. destruct H as [V1 V2 V3]. constructor; auto. }
  destruct o as [ok rnd|ok1 ok2 rnd from m|id|c|ok rnd|ok rnd x|]; cbn [rstep] in E.
  - apply bind_inv in E as (n1 & E1 & E). apply (Hout n1 None None); [|congruence]. unfold timer_tick in E1. apply bind_inv in E1 as (n2 & E2 & E1).
    assert (Hrest : forall n0, n_out n0 = [] -> n_log n0 = n_log n -> n_me n0 = n_me n -> n_term n0 = n_term n -> vq n n0 ->
      election_timeout rnd n0 = Ret n2 -> votes n (OTick ok rnd) n1 (n_out n1)).
    { intros n0 O0 L0 M0 T0 V0 E0. destruct (election_rest ok rnd n n0 n2 n1 O0 L0 M0 ltac:(lia) E0 E1) as [H|(H1 & H2 & H3 & H4 & H5)].
      - apply vq_votes; [assumption|eapply vq_trans; eassumption|discriminate].
      - constructor; [|intros c Hc; left; congruence|discriminate].
        intros to m' li lt h Hin Hb. destruct (H5 _ _ _ _ _ Hin Hb) as (X1 & X2 & X3). auto 7. }
    assert (Hq : vq n n2 -> votes n (OTick ok rnd) n1 (n_out n1)).
    { intros H. apply vq_votes; [assumption|eapply vq_trans; [exact H|exact (change_state_vq _ _ _ _ E1)]|discriminate]. }
    destruct (n_role n) as [l e|v e|fs hb rel] eqn:Er; cbv zeta in E2.
    + destruct (e - 1 <=? 0)%Z; [eapply Hrest; [| | | | |exact E2]; auto; apply vq_role|injection E2 as <-; apply Hq, vq_role].
    + destruct (e - 1 <=? 0)%Z; [eapply Hrest; [| | | | |exact E2]; auto; apply vq_role|injection E2 as <-; apply Hq, vq_role].
    + destruct (hb - 1 <=? 0)%Z; injection E2 as <-; apply Hq, vq_role.
  - apply bind_inv in E as (n1 & E1 & E). apply (Hout n1 None None); [|congruence]. exact (receive_votes _ _ _ _ _ _ _ Ho Hself E1).
  - apply bind_inv in E as (n1 & E1 & E). apply (Hout n1 None None); [|congruence].
    unfold reset_peer in E1. destruct (negb _); [injection E1 as <-; apply vq_votes; [assumption|apply vq_refl|discriminate]|].
    destruct (n_role n) as [| |fs hb rel] eqn:Er; [injection E1 as <-; apply vq_votes; [assumption|apply vq_refl|discriminate]| |].
    + apply bind_inv in E1 as (b & Eb & E1). unfold vote_request in Eb. rewrite Er in Eb. injection Eb as <-.
      assert (Hc : cand n = true) by (unfold cand; now rewrite Er).
      unfold reply in E1. destruct (add_msg_cases _ _ _ _ E1) as [->| ->]; [apply vq_votes; [assumption|apply vq_refl|discriminate]|].
      constructor; cbn [set_out n_out n_term n_voted cand n_role]; [|auto|discriminate].
      intros to m li lt h Hin Hb. rewrite Ho in Hin. destruct Hin as [Hin|[]]. injection Hin as _ <-. cbn in Hb. injection Hb as <- <- _.
      cbn [m_term]. auto 8.
    + destruct (lookup id fs); injection E1 as <-; (apply vq_votes; [assumption| |discriminate]); [apply vq_role|apply vq_refl].
  - apply (Hout (reconfigure c n) None None); [|congruence]. apply vq_votes; [assumption| |discriminate]. constructor; auto.
  - apply bind_inv in E as (n1 & E1 & E). apply (Hout n1 None None); [|congruence]. apply vq_votes; [assumption| |discriminate]. unfold relinquish in E1.
    destruct (n_role n) as [| |fs hb rel] eqn:Er; try (injection E1 as <-; apply vq_refl). destruct rel; [injection E1 as <-; apply vq_refl|].
    apply bind_inv in E1 as ([n2 [l er]] & E2 & E1). destruct (n_role n2) as [| |fs2 hb2 rel2]; try discriminate.
    eapply vq_trans; [exact (client_request_vq _ _ _ _ _ E2)|]. eapply vq_trans; [apply vq_role|exact (change_state_vq _ _ _ _ E1)].
  - apply bind_inv in E as ([n1 r] & E1 & E). apply (Hout n1 (Some r) None); [|congruence]. apply vq_votes; [assumption| |discriminate]. unfold log_request in E1. cbv zeta in E1.
    destruct (match x with IMember g => _ | _ => RE_OK end); try (injection E1 as <- _; apply vq_refl).
    apply bind_inv in E1 as ([n2 r2] & E2 & E1). apply bind_inv in E1 as (n3 & E3 & E1). injection E1 as <- _.
    destruct r2 as [l2 er2]. eapply vq_trans; [exact (client_request_vq _ _ _ _ _ E2)|exact (change_state_vq _ _ _ _ E3)].
  - apply bind_inv in E as ([n1 t] & E1 & E). apply (Hout n1 None t); [|congruence]. apply vq_votes; [assumption| |discriminate]. unfold take_committed in E1.
    destruct (_ <=? _); [injection E1 as <- _; apply vq_refl|]. cbv zeta in E1. destruct (at_idx _ _); [|discriminate]. injection E1 as <- _. constructor; auto.
Qed.
End Votes.
