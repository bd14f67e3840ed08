(* Handing leadership over: proofs. *)
From Verif Require Import RaftLog Raft RaftSpec RaftChain RaftLogProofs RaftNode RaftRun RaftNet RaftNetSpec RaftNetProofs RaftShape
  RaftMoveSpec RaftMoveProofs Membership MembershipSpec MembershipProofs MemberLogSpec MemberLogProofs StopSpec StopProofs HandoverSpec UtilProofs.

Lemma put_In {V} (k : bytes) (v : V) m p x : In (p, x) (put k v m) -> (p = k /\ x = v) \/ In (p, x) m.
Proof.
  induction m as [|[k1 v1] m IH]; cbn [put]; intros H.
  - destruct H as [H|[]]. injection H as <- <-. auto.
  - destruct (bcmp k k1).
    + destruct H as [H|H]; [injection H as <- <-; auto|right; now right].
    + destruct H as [H|H]; [injection H as <- <-; auto|auto].
    + destruct H as [H|H]; [right; now left|]. destruct (IH H); auto. right; now right.
Qed.

Section Walk.
Variable sz : sizes.
Variable hmac : bytes -> bytes -> bytes.
Variable T : N -> bytes -> N -> Prop.
Hypothesis HT0 : forall t p, T t p 0.

(* what a leader takes its followers to hold *)
Definition fits_T (t : N) (fs : list (bytes * repl)) : Prop := forall p f, In (p, f) fs -> T t p (f_match f).
Definition tab (n : node) : Prop := match n_role n with Leader fs _ _ => fits_T (n_term n) fs | _ => True end.
Definition calm (l : list (option bytes * rmsg)) : Prop := Forall (fun x => m_body (snd x) <> TimeoutNow) l.
Definition quiet (n : node) : Prop := calm (n_out n).
(* keeps the table, and says nothing about giving up *)
Definition tame (n n' : node) : Prop := (tab n -> tab n') /\ (quiet n -> quiet n').
Lemma tame_refl n : tame n n. Proof. split; auto. Qed.
Lemma tame_trans a b c : tame a b -> tame b c -> tame a c. Proof. intros [H1 H2] [H3 H4]. split; auto. Qed.
Lemma calm_app a b : calm a -> calm b -> calm (a ++ b). Proof. intros. now apply Forall_app. Qed.
Lemma fits_put t k f fs : fits_T t fs -> T t k (f_match f) -> fits_T t (put k f fs).
Proof. intros H1 H2 p g Hin. apply put_In in Hin as [[-> ->]|Hin]; auto. Qed.
Lemma fits_map t g fs : (forall f, f_match (g f) = f_match f) -> fits_T t fs -> fits_T t (map_followers g fs).
Proof. intros Hg H p f Hin. apply in_map_iff in Hin as ([p' f'] & E & Hin). injection E as <- <-. cbn [fst snd]. rewrite Hg. exact (H _ _ Hin). Qed.
Lemma fits_filter t (g : bytes * repl -> bool) fs : fits_T t fs -> fits_T t (filter g fs).
Proof. intros H p f Hin. apply filter_In in Hin as [Hin _]. exact (H _ _ Hin). Qed.
Lemma fold_fits {X} (g : list (bytes * repl) -> X -> list (bytes * repl)) t : (forall fs x, fits_T t fs -> fits_T t (g fs x)) ->
  forall xs fs, fits_T t fs -> fits_T t (fold_left g xs fs).
Proof. intros Hg. induction xs as [|x xs IH]; intros fs H; cbn [fold_left]; auto. Qed.
Lemma hmc_tame n : tame n (handle_membership_change n).
Proof.
  unfold tame, handle_membership_change. destruct (n_role n) as [| |fs hb rel] eqn:Er; auto. cbv zeta. split; [|auto].
  unfold tab. rewrite Er. cbn [set_role n_role n_term]. intros H. apply fits_filter. apply fold_fits; [|assumption].
  intros fs1 p H1. destruct (_ && _)%bool; [|assumption]. apply fits_put; [assumption|]. apply HT0.
Qed.
Lemma members_tame m u n : tame n (set_members m u n). Proof. split; auto. Qed.
Lemma refresh_tame n : tame n (refresh_members n).
Proof.
  unfold refresh_members. destruct (pop_committed _ _ _) as [m u]. cbv zeta. destruct (Nat.eqb _ _); [apply tame_refl|].
  eapply tame_trans; [apply members_tame|apply hmc_tame].
Qed.
Lemma add_msg_tame to m n n' : m_body m <> TimeoutNow -> add_msg to m n = Ret n' -> tame n n'.
Proof.
  intros Hm. unfold add_msg. assert (Hs : Ret (set_out (n_out n ++ [(to, m)]) n) = Ret n' -> tame n n').
  { intros E. injection E as <-. split; [auto|]. intros Hq. unfold quiet. cbn [set_out n_out]. apply calm_app; [exact Hq|]. constructor; [exact Hm|constructor]. }
  destruct to as [p|].
  - destruct (beq p (n_me n)); [discriminate|exact Hs].
  - destruct (_ && _)%bool; [|exact Hs]. intros E. injection E as <-. apply tame_refl.
Qed.
Lemma reply_tame to b n n' : b <> TimeoutNow -> reply to b n = Ret n' -> tame n n'.
Proof. unfold reply. intros Hb. apply add_msg_tame. exact Hb. Qed.
Lemma role_tame n fs hb rel fs' hb' rel' : n_role n = Leader fs hb rel -> (fits_T (n_term n) fs -> fits_T (n_term n) fs') -> tame n (set_role (Leader fs' hb' rel') n).
Proof. intros Er H. split; [|auto]. unfold tab. rewrite Er. exact H. Qed.
Lemma append_entries_tame peer n n' : append_entries peer n = Ret n' -> tame n n'.
Proof.
  unfold append_entries. destruct (n_role n) as [| |fs hb rel] eqn:Er; try (intros E; injection E as <-; apply tame_refl).
  destruct (lookup peer fs) as [f|] eqn:Ef; [|intros E; injection E as <-; apply tame_refl]. cbv zeta.
  destruct (negb _); [intros E; injection E as <-; apply tame_refl|]. destruct (_ && _)%bool; [intros E; injection E as <-; apply tame_refl|].
  destruct (_ && _)%bool; [intros E; injection E as <-; apply tame_refl|]. intros E.
  apply reply_tame in E; [|discriminate]. eapply tame_trans; [|exact E].
  eapply role_tame; [exact Er|]. intros H. apply fits_put; [assumption|]. cbn [f_match]. apply SMap.lookup_in in Ef. exact (H _ _ Ef).
Qed.
Lemma send_all_tame n n' : send_all n = Ret n' -> tame n n'.
Proof.
  unfold send_all. generalize (m_all (mship n)). generalize (n_me n). intros me ps.
  enough (Hgo : forall o, (forall m, o = Ret m -> tame n m) ->
    fold_left (fun o p => let* m := o in if beq p me then Ret m else append_entries p m) ps o = Ret n' -> tame n n').
  { apply Hgo. intros m E. injection E as <-. apply tame_refl. }
  induction ps as [|p ps IH]; intros o Ho; cbn [fold_left]; [auto|]. apply IH. intros m E. apply bind_inv in E as (m1 & -> & E).
  specialize (Ho _ eq_refl). destruct (beq p me); [injection E as <-; assumption|]. eapply tame_trans; [exact Ho|exact (append_entries_tame _ _ _ E)].
Qed.
Lemma mark_tame n : tame n (mark_update n).
Proof.
  unfold mark_update. destruct (n_role n) as [| |fs hb rel] eqn:Er; try apply tame_refl. eapply role_tame; [exact Er|]. apply fits_map. reflexivity.
Qed.
Lemma advance_tame n n' : advance_commit n = Ret n' -> tame n n'.
Proof.
  unfold advance_commit. destruct (n_role n) as [| |fs hb rel] eqn:Er; try (intros E; injection E as <-; apply tame_refl).
  intros E. apply bind_inv in E as (np & _ & E). cbv zeta in E. set (n1 := if n_promise n <? np then _ else _) in E.
  assert (H1 : tame n n1) by (unfold n1; destruct (_ <? _); split; auto). clearbody n1.
  apply bind_inv in E as (nc & _ & E). set (n2 := if n_commit n1 <? nc then _ else _) in E.
  assert (H2 : tame n1 n2).
  { unfold n2. destruct (_ <? _); [|apply tame_refl]. eapply tame_trans; [|apply refresh_tame]. split; auto. }
  clearbody n2.
  injection E as <-. destruct (_ || _)%bool; [eapply tame_trans; [|apply mark_tame]|]; eapply tame_trans; eassumption.
Qed.
Lemma add_uncommitted_tame idx m n n' : add_uncommitted idx m n = Ret n' -> tame n n'.
Proof.
  unfold add_uncommitted. destruct (n_unc n) as [|u us].
  - intros E; injection E as <-. eapply tame_trans; [apply members_tame|apply hmc_tame].
  - destruct (_ <? idx); [|discriminate]. intros E; injection E as <-. eapply tame_trans; [apply members_tame|apply hmc_tame].
Qed.
Lemma log_append_tame e n n' r : log_append sz e n = Ret (n', r) -> tame n n'.
Proof.
  unfold log_append. cbv zeta.
  assert (Hyes : forall mm, (let* '(l0, er0) := append sz e (n_applied n) (n_log n) in
      match er0 with
      | L_OK => match mm with
                | Some m => let* n2 := add_uncommitted (last_idx l0) m (set_log l0 n) in Ret (n2, (Loc (n_term n) (last_idx l0) (e_hash e), RE_OK))
                | None => Ret (set_log l0 n, (Loc (n_term n) (last_idx l0) (e_hash e), RE_OK))
                end
      | _ => Ret (set_log l0 n, (no_loc, RE_Log er0))
      end) = Ret (n', r) -> tame n n').
  { intros mm E. apply bind_inv in E as ([l0 er0] & _ & E). assert (H0 : tame n (set_log l0 n)) by (split; auto).
    destruct er0; try (injection E as <- _; exact H0). destruct mm as [m|]; [|injection E as <- _; exact H0].
    apply bind_inv in E as (n2 & E2 & E). injection E as <- _. eapply tame_trans; [exact H0|exact (add_uncommitted_tame _ _ _ _ E2)]. }
  destruct (e_inner e); try apply (Hyes None).
  destruct (from_proto _) as [m er1]. destruct er1; try (intros E; injection E as <- _; apply tame_refl). apply (Hyes (Some m)).
Qed.
Lemma client_request_tame x n n' r : client_request sz hmac x n = Ret (n', r) -> tame n n'.
Proof.
  unfold client_request. destruct (n_role n) as [| |fs hb rel] eqn:Er; try (intros E; injection E as <- _; apply tame_refl).
  destruct rel; [intros E; injection E as <- _; apply tame_refl|]. apply log_append_tame.
Qed.
Lemma leader_tame n n' : maybe_become_leader sz hmac n = Ret n' -> tame n n'.
Proof.
  unfold maybe_become_leader. destruct (n_role n) as [|votes e|] eqn:Er; try (intros E; injection E as <-; apply tame_refl).
  destruct (_ <? _); [intros E; injection E as <-; apply tame_refl|]. cbv zeta. intros E. apply bind_inv in E as ([n1 r] & E1 & E). injection E as <-.
  eapply tame_trans; [|exact (client_request_tame _ _ _ _ E1)]. split; [|auto]. intros _. unfold tab. cbn [set_role n_role n_term].
  apply fold_fits; [|intros p f []]. intros fs p H. destruct (beq p (n_me n)); [assumption|]. apply fits_put; [assumption|apply HT0].
Qed.

(* the message a leader gives up with *)
Definition hands (n' : node) (x : option bytes * rmsg) : Prop :=
  m_body (snd x) = TimeoutNow ->
  m_term (snd x) = n_term n' /\ is_leader n' = false /\
  exists q, fst x = Some q /\ q <> n_me n' /\ In q (m_voting (mship n')) /\ T (n_term n') q (last_idx (n_log n')).
Lemma calm_hands n' l : calm l -> Forall (hands n') l.
Proof. apply Forall_impl. intros x H E. contradiction. Qed.
Lemma change_state_tab ok rnd n n' : tab n -> quiet n -> change_state sz hmac ok rnd n = Ret n' ->
  tab n' /\ Forall (hands n') (n_out n') /\ (is_leader n = false -> quiet n').
Proof.
  intros Ht Hq E. unfold change_state in E. apply bind_inv in E as (n1 & E1 & E). apply bind_inv in E as (n2 & E2 & E). apply bind_inv in E as (n3 & E3 & E).
  assert (H3 : tame n n3).
  { eapply tame_trans; [exact (leader_tame _ _ E1)|]. eapply tame_trans; [|exact (send_all_tame _ _ E3)].
    destruct ok; [exact (advance_tame _ _ E2)|injection E2 as <-; apply tame_refl]. }
  assert (K3 : kind n3 = kind n1).
  { apply (sl_kind n1 n3). eapply still_trans; [|exact (send_all_still _ _ E3)]. destruct ok; [exact (advance_still _ _ E2)|injection E2 as <-; apply still_refl]. }
  destruct H3 as [H4 H5]. specialize (H4 Ht). specialize (H5 Hq).
  assert (Hsame : Ret n3 = Ret n' -> tab n' /\ Forall (hands n') (n_out n') /\ (is_leader n = false -> quiet n')).
  { intros X. injection X as <-. split; [assumption|]. split; [now apply calm_hands|auto]. }
  destruct (n_role n3) as [| |fs hb rel] eqn:Er; auto. destruct rel; auto.
  assert (Hl : is_leader n = true).
  { unfold maybe_become_leader in E1. destruct (n_role n) as [|votes e|] eqn:Er0.
    - injection E1 as <-. unfold kind in K3. rewrite Er, Er0 in K3. discriminate.
    - exfalso. destruct (_ <? _).
      + injection E1 as <-. unfold kind in K3. rewrite Er, Er0 in K3. discriminate.
      + cbv zeta in E1. apply bind_inv in E1 as ([n1' [l er]] & E1 & E5). injection E5 as <-. apply client_request_shape in E1 as (X1 & _).
        rewrite X1 in K3. unfold kind in K3. rewrite Er in K3. cbn [set_role n_role] in K3. discriminate.
    - unfold is_leader. now rewrite Er0. }
  unfold try_relinquish in E. rewrite Er in E. destruct (find _ _) as [q|] eqn:Ef; [|auto].
  apply bind_inv in E as (n4 & E4 & E). injection E as <-. apply find_some in Ef as [Hv Hf]. apply andb_prop in Hf as [Hne Hf].
  destruct (lookup q fs) as [f|] eqn:El; [|discriminate]. apply N.eqb_eq in Hf. apply SMap.lookup_in in El.
  unfold reply, add_msg in E4. destruct (beq q (n_me n3)) eqn:Eq; [discriminate|]. injection E4 as <-.
  split; [exact I|]. split; [|congruence]. cbn [set_role set_out n_out]. apply Forall_app. split; [now apply calm_hands|]. constructor; [|constructor].
  intros _. cbn [fst snd m_term]. split; [reflexivity|]. split; [reflexivity|]. exists q. split; [reflexivity|]. cbn [set_role set_out n_me n_term n_log].
  split; [intros X; apply beq_neq in Eq; congruence|]. split; [exact Hv|]. rewrite <- Hf. unfold tab in H4. rewrite Er in H4. exact (H4 _ _ El).
Qed.

(* --- a whole call: up to its end ------------------------------------------------------ *)
(* a success message that n accepts is about entries its sender holds *)
Definition told (n : node) (o : rop) : Prop :=
  forall ok1 ok2 rnd from m midx mlast mp mh, o = OReceive ok1 ok2 rnd from m -> m_body m = AppResp true midx mlast mp mh ->
    validate_msg m from n = Ret RE_OK -> m_term m = n_term n -> is_leader n = true -> midx < nxt (n_log n) -> T (n_term n) from midx.
Record first (n : node) (o : rop) (n2 : node) : Prop := MkFirst {
  ft_quiet : quiet n2;
  ft_lead : is_leader n2 = true -> is_leader n = true /\ n_term n2 = n_term n /\ lgrow (n_term n) (n_log n) (n_log n2) /\ n_me n2 = n_me n;
  ft_tab : tab n -> told n o -> tab n2
}.
Lemma election_first rnd n o n1 n2 : first n o n1 -> election_timeout rnd n1 = Ret n2 -> first n o n2.
Proof.
  intros [F1 F2 F3] E. unfold election_timeout in E. destruct (negb (voting n1)).
  - injection E as <-. destruct (n_role n1) eqn:Er; [|now constructor|now constructor].
    constructor; [exact F1|discriminate|intros; exact I].
  - assert (Hc : forall x, (let* b := vote_request (set_role (Candidate x rnd) (set_voted (Some (n_me n1)) (set_term (n_term n1 + 1) n1))) in
        add_msg None (RMsg (n_group n1) (n_term n1 + 1) b) (set_role (Candidate x rnd) (set_voted (Some (n_me n1)) (set_term (n_term n1 + 1) n1)))) = Ret n2 -> first n o n2).
    { intros x Ex. apply bind_inv in Ex as (b & Eb & Ex). unfold vote_request in Eb. cbn [set_role n_role] in Eb. injection Eb as <-.
      pose proof (add_msg_still _ _ _ _ Ex) as Hst. apply add_msg_tame in Ex as [X1 X2]; [|discriminate].
      constructor; [apply X2; exact F1| |intros; apply X1; exact I].
      intros Hl. rewrite (still_leader _ _ Hst) in Hl. discriminate. }
    destruct (n_role n1) eqn:Er; [exact (Hc _ E)|exact (Hc _ E)|injection E as <-; now constructor].
Qed.
Lemma reply_me to b n n' : reply to b n = Ret n' -> n_me n' = n_me n.
Proof. unfold reply, add_msg. destruct (beq _ _); [discriminate|]. intros E. now injection E as <-. Qed.
Lemma reply_first to b n o n1 n2 : b <> TimeoutNow -> first n o n1 -> reply to b n1 = Ret n2 -> first n o n2.
Proof.
  intros Hb [F1 F2 F3] E. pose proof (reply_still _ _ _ _ E) as Hs. pose proof (reply_me _ _ _ _ E) as Hm. apply reply_tame in E as [X1 X2]; [|assumption].
  constructor; [auto| |auto]. intros Hl. rewrite (still_leader _ _ Hs) in Hl. rewrite (sl_term _ _ Hs), (sl_log _ _ Hs), Hm. auto.
Qed.
Lemma first_refl n o : quiet n -> first n o n.
Proof. intros H. constructor; auto. intros Hl. split; [assumption|]. split; [reflexivity|]. split; [apply lgrow_refl|reflexivity]. Qed.
Lemma follow_first n o n1 : quiet n1 -> is_leader n1 = false -> first n o n1.
Proof. intros H1 H2. constructor; [assumption|congruence|]. intros _ _. unfold tab. unfold is_leader in H2. destruct (n_role n1); [exact I|exact I|discriminate]. Qed.
(* same replica, same table *)
Lemma role_first n o n1 fs hb rel fs' hb' rel' : first n o n1 -> n_role n1 = Leader fs hb rel -> (fits_T (n_term n1) fs -> fits_T (n_term n1) fs') -> first n o (set_role (Leader fs' hb' rel') n1).
Proof.
  intros [F1 F2 F3] Er Hf. constructor; [exact F1| |].
  - intros _. apply F2. unfold is_leader. now rewrite Er.
  - intros Ht Hg. destruct (role_tame n1 fs hb rel fs' hb' rel' Er Hf) as [X _]. auto.
Qed.
Lemma process_out es : forall idx p n n' p', is_leader n = false -> process_entries sz hmac es idx p n = Ret (n', p') -> tame n n' /\ is_leader n' = false.
Proof.
  induction es as [|e es IH]; intros idx p n n' p' Hl E; cbn [process_entries] in E; [injection E as <- _; split; [apply tame_refl|assumption]|].
  cbv zeta in E. destruct (_ && _)%bool in E; [injection E as <- _; split; [apply tame_refl|assumption]|].
  set (c := if (_ && _)%bool then _ else _) in E.
  assert (Hc : forall n1, c = Some n1 -> tame n n1 /\ is_leader n1 = false).
  { intros n1. unfold c. destruct (_ && _)%bool; [|intros X; injection X as <-; split; [apply tame_refl|assumption]].
    destruct (cancel_from _ _) as [l r]. destruct r; try discriminate. intros X. injection X as <-.
    split; [eapply tame_trans; [|apply refresh_tame]; split; auto|]. rewrite (still_leader _ _ (refresh_still _)). exact Hl. }
  destruct c as [n1|]; [|injection E as <- _; split; [apply tame_refl|assumption]]. destruct (Hc _ eq_refl) as [C1 C2].
  destruct (_ =? _).
  - destruct (negb _); [injection E as <- _; auto|]. apply bind_inv in E as ([n2 [l er]] & E2 & E).
    pose proof (log_append_tame _ _ _ _ E2) as T2. apply log_append_shape in E2 as (K2 & _).
    assert (L2 : is_leader n2 = false) by (unfold kind, is_leader in *; destruct (n_role n1), (n_role n2); congruence).
    destruct er; try (injection E as <- _; split; [eapply tame_trans; eassumption|assumption]).
    apply IH in E as [X1 X2]; [|assumption]. split; [eapply tame_trans; [|eapply tame_trans]; eassumption|assumption].
  - apply IH in E as [X1 X2]; [|assumption]. split; [eapply tame_trans; eassumption|assumption].
Qed.
Lemma append_request_first ok rnd t prev pterm commit es promise from n o n1 n2 : first n o n1 ->
  handle_append_request sz hmac ok rnd t prev pterm commit es promise from n1 = Ret n2 -> first n o n2.
Proof.
  intros F E. unfold handle_append_request in E. cbv zeta in E. destruct (n_term n1 <? t); [injection E as <-; assumption|].
  destruct (t <? n_term n1). { eapply reply_first; [|exact F|exact E]. discriminate. }
  assert (Hgo : forall n0, is_leader n0 = false -> quiet n0 ->
    (if negb ((prev =? 0) || match at_idx (n_log n1) prev with Some e => pterm =? e_term e | None => false end)
     then reply from (AppResp false (n_commit n0) (last_idx (n_log n0)) (n_promise n0) (hash_at (n_log n0) (n_commit n0))) n0
     else let* '(n3, processed) := process_entries sz hmac es (prev + 1) prev n0 in
      (if ((n_commit n3 <? N.min commit processed) || (n_promise n3 <? N.min promise processed)) && negb ok then Ret n3 else
       let n4 := if n_promise n3 <? N.min promise processed then set_promise (N.min promise processed) n3 else n3 in
       let n5 := if n_commit n4 <? N.min commit processed then refresh_members (set_commit (N.min commit processed) n4) else n4 in
       reply from (AppResp true processed (last_idx (n_log n5)) (N.min (n_promise n5) processed) (hash_at (n_log n5) processed)) n5))%bool = Ret n2 -> first n o n2).
  { intros n0 L0 Q0 E0. destruct (negb _) in E0. { eapply reply_first; [|apply (follow_first n o n0 Q0 L0)|exact E0]. discriminate. }
    apply bind_inv in E0 as ([n3 processed] & E3 & E0). apply process_out in E3 as [[_ Q3] L3]; [|assumption]. specialize (Q3 Q0).
    destruct (_ && _)%bool in E0; [injection E0 as <-; now apply follow_first|]. cbv zeta in E0.
    set (n4 := if n_promise n3 <? _ then _ else _) in E0. assert (X4 : quiet n4 /\ is_leader n4 = false) by (unfold n4; destruct (_ <? _); auto). clearbody n4.
    set (n5 := if n_commit n4 <? _ then _ else _) in E0.
    assert (X5 : quiet n5 /\ is_leader n5 = false).
    { unfold n5. destruct (_ <? _); [|auto]. split; [apply (proj2 (refresh_tame _)); apply X4|]. rewrite (still_leader _ _ (refresh_still _)). apply X4. }
    eapply reply_first; [|apply (follow_first n o n5); apply X5|exact E0]. discriminate. }
  destruct F as [F1 F2 F3]. destruct (n_role n1) eqn:Er; [| |injection E as <-; now constructor].
  - eapply Hgo; [| |exact E]; [reflexivity|exact F1].
  - eapply Hgo; [| |exact E]; [reflexivity|exact F1].
Qed.
Lemma max_T t p a b : T t p a -> T t p b -> T t p (N.max a b).
Proof. intros Ha Hb. destruct (N.max_spec a b) as [[_ ->]|[_ ->]]; assumption. Qed.
Lemma append_response_first t s midx mlast mp mh from n o n1 n2 : first n o n1 -> lw n1 ->
  (s = true -> t = n_term n1 -> is_leader n1 = true -> midx < nxt (n_log n1) -> tab n -> told n o -> T (n_term n1) from midx) ->
  handle_append_response t s midx mlast mp mh from n1 = Ret n2 -> first n o n2.
Proof.
  intros F Hlw Hs E. unfold handle_append_response in E. destruct (negb (t =? n_term n1)) eqn:Et; [injection E as <-; assumption|].
  destruct (n_role n1) as [| |fs hb rel] eqn:Er; try (injection E as <-; assumption).
  destruct (lookup from fs) as [f|] eqn:El; [|injection E as <-; assumption]. apply SMap.lookup_in in El.
  assert (Hl : is_leader n1 = true) by (unfold is_leader; now rewrite Er).
  destruct s.
  - cbv zeta in E. destruct (match at_idx _ _ with Some _ => _ | None => _ end) eqn:Ec; [|discriminate]. injection E as <-.
    assert (Hm : midx < nxt (n_log n1)).
    { destruct (at_idx (n_log n1) midx) eqn:Ea; [now apply at_idx_lt in Ea|]. rewrite <- (lw_next _ Hlw). lia. }
    assert (Ht : t = n_term n1) by (destruct (t =? n_term n1) eqn:X; [now apply N.eqb_eq|discriminate]).
    pose proof F as [F1 F2 F3]. constructor; [exact F1|intros _; auto|]. intros Ht1 Hg. specialize (F3 Ht1 Hg). unfold tab in F3 |- *. rewrite Er in F3.
    cbn [set_role n_role n_term]. apply fits_put; [assumption|]. cbn [f_match]. apply max_T; [exact (F3 _ _ El)|auto].
  - cbv zeta in E. injection E as <-. eapply role_first; [exact F|exact Er|]. intros H. apply fits_put; [assumption|]. cbn [f_match]. exact (H _ _ El).
Qed.
Lemma seen_first from n o n1 : first n o n1 -> first n o (seen_now from n1).
Proof.
  intros F. unfold seen_now. destruct (n_role n1) as [| |fs hb rel] eqn:Er; try assumption. destruct (lookup from fs) as [f|] eqn:El; [|assumption].
  eapply role_first; [exact F|exact Er|]. intros H. apply fits_put; [assumption|]. cbn [f_match]. apply SMap.lookup_in in El. exact (H _ _ El).
Qed.
Lemma update_first rnd t n o : quiet n -> first n o (update_term rnd t n).
Proof.
  intros H. unfold update_term. destruct (t <=? n_term n); [now apply first_refl|]. now apply follow_first.
Qed.
Lemma lead_same n o n1 : first n o n1 -> is_leader n1 = true -> is_leader n = true /\ n_term n1 = n_term n.
Proof. intros [_ F _] H. destruct (F H) as (H1 & H2 & _). auto. Qed.

Definition ended (n2 n3 : node) : Prop := n3 = n2 \/ exists ok rnd, change_state sz hmac ok rnd n2 = Ret n3.
Lemma receive_first ok1 ok2 rnd m from n n' : lw n -> quiet n -> receive sz hmac ok1 ok2 rnd m from n = Ret n' ->
  exists n2, first n (OReceive ok1 ok2 rnd from m) n2 /\ ended n2 n'.
Proof.
  intros Hlw Hq E. set (o := OReceive ok1 ok2 rnd from m). unfold receive in E. apply bind_inv in E as (er & Ev & E).
  destruct er; try (injection E as <-; exists n; split; [now apply first_refl|now left]).
  cbv zeta in E. set (n1 := seen_now from (update_term rnd (m_term m) n)) in E.
  assert (F1 : first n o n1) by (apply seen_first, update_first; assumption).
  assert (Hlw1 : lw n1).
  { eapply still_lw; [apply seen_now_still|]. unfold update_term. destruct (_ <=? _); exact Hlw. }
  assert (Hlog1 : n_log n1 = n_log n).
  { unfold n1. rewrite (sl_log _ _ (seen_now_still from _)). apply update_term_facts. }
  apply bind_inv in E as (n2 & E2 & E). exists n2. split; [|right; eauto].
  destruct (m_body m) as [lidx lterm lh|g|prev pterm commit es promise ph|s midx mlast mp mh| |] eqn:Eb.
  - unfold handle_vote_request in E2. cbv zeta in E2. destruct (n_term n1 <? m_term m); [injection E2 as <-; assumption|].
    eapply reply_first; [|  |exact E2]; [discriminate|]. destruct (_ && _)%bool; [|assumption].
    destruct F1 as [X1 X2 X3]. destruct (n_role n1) eqn:Er.
    + now apply follow_first.
    + now apply follow_first.
    + constructor; [exact X1| |].
      * intros _. apply X2. unfold is_leader. now rewrite Er.
      * intros Y1 Y2. specialize (X3 Y1 Y2). unfold tab in *. now rewrite Er in X3.
  - destruct (_ <? _) in E2; injection E2 as <-; [assumption|]. unfold handle_vote_response. destruct (negb _); [assumption|].
    destruct (n_role n1) eqn:Er; try assumption. destruct (_ && _)%bool; [|assumption]. apply follow_first; [apply F1|reflexivity].
  - eapply append_request_first; eassumption.
  - destruct (_ <? _) in E2; [injection E2 as <-; assumption|]. eapply append_response_first; [exact F1|exact Hlw1| |exact E2].
    intros -> Ht Hl Hm Htab Htold. destruct (lead_same _ _ _ F1 Hl) as [L1 T1]. rewrite T1 in *. rewrite Hlog1 in Hm.
    eapply Htold; try reflexivity; eassumption.
  - destruct (_ <? _) in E2; [injection E2 as <-; assumption|]. eapply election_first; eassumption.
  - injection E2 as <-; assumption.
Qed.
Lemma tick_first ok rnd n n' : quiet n -> timer_tick sz hmac ok rnd n = Ret n' -> exists n2, first n (OTick ok rnd) n2 /\ ended n2 n'.
Proof.
  intros Hq E. unfold timer_tick in E. apply bind_inv in E as (n2 & E2 & E). exists n2. split; [|right; eauto].
  destruct (n_role n) as [l e|v e|fs hb rel] eqn:Er.
  - cbv zeta in E2. assert (F : first n (OTick ok rnd) (set_role (Follower l (e - 1)) n)) by (now apply follow_first).
    destruct (_ <=? _)%Z; [eapply election_first; eassumption|now injection E2 as <-].
  - cbv zeta in E2. assert (F : first n (OTick ok rnd) (set_role (Candidate v (e - 1)) n)) by (now apply follow_first).
    destruct (_ <=? _)%Z; [eapply election_first; eassumption|now injection E2 as <-].
  - cbv zeta in E2. destruct (_ <=? _)%Z; injection E2 as <-; (eapply role_first; [now apply first_refl|exact Er|]); intros H.
    + apply fits_map; [reflexivity|]. apply fits_map; [|assumption]. intros f. now destruct (_ =? _)%Z.
    + apply fits_map; [|assumption]. intros f. now destruct (_ =? _)%Z.
Qed.
Lemma client_me x n n' r : client_request sz hmac x n = Ret (n', r) -> n_me n' = n_me n.
Proof.
  assert (Hh : forall m, n_me (handle_membership_change m) = n_me m) by (intros m; unfold handle_membership_change; destruct (n_role m); reflexivity).
  assert (Hu : forall i m a b, add_uncommitted i m a = Ret b -> n_me b = n_me a).
  { intros i m a b. unfold add_uncommitted. destruct (n_unc a); [|destruct (_ <? _); [|discriminate]]; intros E; injection E as <-; now rewrite Hh. }
  assert (Hl : forall e, log_append sz e n = Ret (n', r) -> n_me n' = n_me n).
  { intros e. unfold log_append. cbv zeta. destruct (e_inner e); try destruct (from_proto _) as [mm er1]; try destruct er1;
      try (intros E; injection E as <- _; reflexivity); intros E; apply bind_inv in E as ([l0 er0] & _ & E); destruct er0; try (injection E as <- _; reflexivity).
    apply bind_inv in E as (n2 & E2 & E). injection E as <- _. apply Hu in E2. exact E2. }
  unfold client_request. destruct (n_role n) as [| |fs hb rel]; try (intros E; injection E as <- _; reflexivity).
  destruct rel; [intros E; injection E as <- _; reflexivity|]. apply Hl.
Qed.
Lemma client_first x n o n1 r : quiet n -> client_request sz hmac x n = Ret (n1, r) -> first n o n1.
Proof.
  intros Hq E. destruct (client_request_tame _ _ _ _ E) as [X1 X2]. pose proof (client_me _ _ _ _ E) as Hm. destruct r as [l er].
  destruct (client_request_shape sz hmac _ _ _ _ _ E) as (K1 & T1 & _ & _ & G1 & _). constructor; [auto| |auto]. intros Hl.
  split; [|auto]. apply leader_kind in Hl as [rel Hl]. apply leader_kind. exists rel. congruence.
Qed.
Lemma rstep_first n o n' a : lw n -> n_out n = [] -> rstep sz hmac n o = Ret (n', a) ->
  exists n2 n3, first n o n2 /\ ended n2 n3 /\ n' = set_out [] n3 /\ a_sent a = n_out n3.
Proof.
  intros Hlw Ho E. assert (Hq : quiet n) by (unfold quiet; rewrite Ho; constructor).
  destruct o as [ok rnd|ok1 ok2 rnd from m|id|c|ok rnd|ok rnd x|]; cbn [rstep] in E.
  - apply bind_inv in E as (n3 & E3 & E). injection E as <- <-. apply tick_first in E3 as (n2 & F & En); [|assumption]. exists n2, n3. auto.
  - apply bind_inv in E as (n3 & E3 & E). injection E as <- <-. apply receive_first in E3 as (n2 & F & En); [|assumption|assumption]. exists n2, n3. auto.
  - apply bind_inv in E as (n3 & E3 & E). injection E as <- <-. exists n3, n3. split; [|split; [now left|auto]].
    unfold reset_peer in E3. destruct (negb _); [injection E3 as <-; now apply first_refl|].
    destruct (n_role n) as [| |fs hb rel] eqn:Er; [injection E3 as <-; now apply first_refl| |].
    + apply bind_inv in E3 as (b & Eb & E3). unfold vote_request in Eb. rewrite Er in Eb. injection Eb as <-. eapply reply_first; [|apply (first_refl n); assumption|exact E3]. discriminate.
    + destruct (lookup id fs) as [f|] eqn:El; injection E3 as <-; [|now apply first_refl]. eapply role_first; [now apply first_refl|exact Er|].
      intros H. apply fits_put; [assumption|]. cbn [f_match]. apply SMap.lookup_in in El. exact (H _ _ El).
  - injection E as <- <-. exists (reconfigure c n), (reconfigure c n). split; [|split; [now left|auto]]. unfold reconfigure. cbv zeta.
    destruct (n_role n) as [| |fs hb rel] eqn:Er; [now apply follow_first|now apply follow_first|].
    constructor; [exact Hq| |].
    + intros _. split; [unfold is_leader; now rewrite Er|]. split; [reflexivity|]. split; [apply lgrow_refl|reflexivity].
    + intros Ht _. unfold tab in *. now rewrite Er in Ht.
  - apply bind_inv in E as (n3 & E3 & E). injection E as <- <-. unfold relinquish in E3.
    destruct (n_role n) as [| |fs hb rel] eqn:Er; try (injection E3 as <-; exists n, n; split; [now apply first_refl|split; [now left|auto]]).
    destruct rel; [injection E3 as <-; exists n, n; split; [now apply first_refl|split; [now left|auto]]|].
    apply bind_inv in E3 as ([n1 r] & E1 & E3). pose proof (client_first _ _ (ORelinquish ok rnd) _ _ Hq E1) as F1.
    destruct (n_role n1) as [| |fs1 hb1 rel1] eqn:Er1; try discriminate. exists (set_role (Leader fs1 hb1 true) n1), n3.
    split; [eapply role_first; [exact F1|exact Er1|auto]|]. split; [right; eauto|auto].
  - apply bind_inv in E as ([n3 r] & E3 & E). injection E as <- <-. unfold log_request in E3. cbv zeta in E3. set (refused := match x with IMember _ => _ | _ => _ end) in E3.
    destruct refused; try (injection E3 as <- _; exists n, n; split; [now apply first_refl|split; [now left|auto]]).
    apply bind_inv in E3 as ([n1 r1] & E1 & E3). apply bind_inv in E3 as (n4 & E4 & E3). injection E3 as <- _.
    exists n1, n4. split; [exact (client_first _ _ _ _ _ Hq E1)|]. split; [right; eauto|auto].
  - apply bind_inv in E as ([n3 t] & E3 & E). injection E as <- <-. exists n3, n3. split; [|split; [now left|auto]].
    unfold take_committed in E3. destruct (_ <=? _); [injection E3 as <- _; now apply first_refl|]. cbv zeta in E3.
    destruct (at_idx _ _); [|discriminate]. injection E3 as <- _. constructor; [exact Hq| |auto].
    intros Hl. split; [exact Hl|]. split; [reflexivity|]. split; [apply lgrow_refl|reflexivity].
Qed.
Lemma ended_tab n2 n3 : tab n2 -> quiet n2 -> ended n2 n3 ->
  tab n3 /\ Forall (hands n3) (n_out n3) /\ (is_leader n2 = false -> quiet n3).
Proof.
  intros H1 H2 [->|(ok & rnd & E)].
  - split; [assumption|]. split; [now apply calm_hands|auto].
  - exact (change_state_tab _ _ _ _ H1 H2 E).
Qed.
End Walk.

(* --- logs ------------------------------------------------------------------------------ *)
Lemma nth_prefix {X} (a b : list X) : (forall i e, nth_entry a i = Some e -> nth_entry b i = Some e) -> prefix a b.
Proof.
  revert b. induction a as [|x a IH]; intros b H; [apply prefix_nil|].
  pose proof (H 1 x eq_refl) as H1. destruct b as [|y b]; [discriminate|]. cbn in H1. injection H1 as ->.
  destruct (IH b) as [c ->]; [|now exists c]. intros i e Hi. pose proof (nth_entry_len _ _ _ Hi) as [Hp _].
  assert (Hs : forall z (l : list X), nth_entry (z :: l) (i + 1) = nth_entry l i).
  { intros z l. unfold nth_entry. destruct (i + 1 =? 0) eqn:E1; [lia|]. destruct (i =? 0) eqn:E2; [lia|].
    replace (N.to_nat (i + 1 - 1)) with (Datatypes.S (N.to_nat (i - 1))) by lia. reflexivity. }
  rewrite <- (Hs x b). apply H. now rewrite Hs.
Qed.
Lemma grown_prefix t l l' ap ap' A : stored l ap A -> stored l' ap' (regrow A l') -> lgrow t l l' -> prefix A (regrow A l').
Proof.
  intros H1 H2 [G1 G2]. apply nth_prefix. intros i e Hi. pose proof (nth_entry_len _ _ _ Hi) as [Hp Hl].
  pose proof (stored_nxt _ _ _ H1) as N1. pose proof (stored_nxt _ _ _ H2) as N2.
  destruct (N.lt_ge_cases i (l_oldest l')) as [Hlt|Hge].
  - assert (Hu : upto i (regrow A l') = upto i A).
    { unfold regrow, upto. rewrite firstn_app, firstn_firstn. rewrite firstn_length. unfold llen in Hl.
      replace (N.to_nat i - _)%nat with 0%nat by lia. cbn [firstn]. rewrite app_nil_r. f_equal. lia. }
    rewrite <- Hi. apply (upto_nth i i); [assumption|lia].
  - destruct (nth_entry_some (regrow A l') i) as [e' He]; [assumption|lia|]. rewrite He. pose proof He as Ha.
    rewrite <- (st_at_ge _ _ _ i H2 Hge) in Ha. destruct (G2 _ _ Ha) as [[_ X]|[X _]]; [|lia].
    apply (st_at_some _ _ _ _ _ H1) in X. congruence.
Qed.
Lemma check_same n i h : check_log_hash n i 0 h = Ret RE_OK -> i <> 0 -> i <= last_idx (n_log n) -> exists e, at_idx (n_log n) i = Some e /\ h = e_hash e.
Proof.
  unfold check_log_hash. cbv zeta. destruct (i =? 0) eqn:E0; [lia|]. destruct (i <? _); [discriminate|]. destruct (_ <? i) eqn:El; [lia|].
  destruct (at_idx (n_log n) i) as [e|]; [|discriminate]. cbn [negb andb N.eqb]. destruct (beq h (e_hash e)) eqn:Eb; [|discriminate].
  intros _ _ _. exists e. split; [reflexivity|]. now apply beq_eq.
Qed.
Lemma validate_resp m from n s midx mlast mp mh : m_body m = AppResp s midx mlast mp mh -> validate_msg m from n = Ret RE_OK -> check_log_hash n midx 0 mh = Ret RE_OK.
Proof.
  intros Eb. unfold validate_msg. rewrite Eb. destruct (negb _); [discriminate|]. destruct (negb _); [discriminate|].
  intros E. apply bind_inv in E as (er & E1 & E). destruct er; try discriminate. exact E1.
Qed.

(* --- the group --------------------------------------------------------------------------- *)
Section Group.
Variable sz : sizes.
Variable hmac : bytes -> bytes -> bytes.
Variable M : members.
Variable sm : N.
Variable L0 : list entry.
Variable F : members -> Prop.
Hypothesis HM : wfF F M.
Hypothesis Hov : overlapping sm (wfF F).
Notation ginv := (ginv hmac sm L0 (wfF F) (within F)).

(* p had all of X in its log, in term t *)
Definition had (P : hist) (p : bytes) (t : N) (X : list entry) : Prop :=
  X = [] \/ exists n1 A1, In (p, (n1, A1)) P /\ n_term n1 = t /\ prefix X A1.
Definition TT (P : hist) (A : list entry) (t : N) (p : bytes) (i : N) : Prop := i <= llen A /\ had P p t (upto i A).
Definition honest (s : net) : Prop := forall k n A, In (k, (n, A)) (w_past s) -> tab (TT (w_past s) A) n.
Lemma TT0 P A t p : TT P A t p 0. Proof. split; [lia|now left]. Qed.
Lemma tab_impl (T1 T2 : N -> bytes -> N -> Prop) n : (forall t p i, T1 t p i -> T2 t p i) -> tab T1 n -> tab T2 n.
Proof. unfold tab, fits_T. destruct (n_role n); auto. Qed.
Lemma TT_mono P P' A t p i : incl P P' -> TT P A t p i -> TT P' A t p i.
Proof. intros Hi [H1 [H2|(n1 & A1 & H2 & H3)]]; (split; [assumption|]); [now left|right]. exists n1, A1. auto. Qed.
Lemma TT_prefix P A A' t p i : prefix A A' -> TT P A t p i -> TT P A' t p i.
Proof. intros Hp [H1 H2]. pose proof (prefix_len _ _ Hp). unfold TT, llen in *. split; [lia|]. rewrite <- (prefix_upto_eq i A A'); auto. Qed.

(* the message with which n, now n', gives up *)
Definition passes (P : hist) (n : node) (A : list entry) (n' : node) (A' : list entry) (x : option bytes * rmsg) : Prop :=
  m_body (snd x) = TimeoutNow ->
  m_term (snd x) = n_term n' /\ is_leader n = true /\ n_term n = n_term n' /\ is_leader n' = false /\ prefix A A' /\
  exists q, fst x = Some q /\ q <> n_me n' /\ In q (m_voting (mship n')) /\ had P q (n_term n') A'.
Lemma step_hand s k o n A n' a : ginv s -> unclashed (w_past s) -> honest s -> lookup k (w_now s) = Some (n, A) ->
  (forall ok1 ok2 rnd from m, o = OReceive ok1 ok2 rnd from m -> exists to, In (from, (to, m)) (w_soup s)) ->
  rstep sz hmac n o = Ret (n', a) -> lw n' -> stored (n_log n') (n_applied n') (regrow A (n_log n')) ->
  tab (TT (w_past s) (regrow A (n_log n'))) n' /\ Forall (passes (w_past s) n A n' (regrow A (n_log n'))) (a_sent a).
Proof.
  intros HI Hun Hh El Hmsg Er Hlw' Hst'. set (P := w_past s) in *. set (A' := regrow A (n_log n')) in *.
  pose proof (gi_now _ _ _ _ _ s HI k n A El) as Hin. destruct (gi_past _ _ _ _ _ s HI k n A Hin) as [HR Ho].
  pose proof (ri_st _ _ _ _ _ _ _ _ _ _ _ HR) as Hst. pose proof (RI_lw _ _ _ _ _ _ _ _ _ _ _ HR) as Hlw.
  pose proof (ri_ch _ _ _ _ _ _ _ _ _ _ _ HR) as HcA.
  destruct (rstep_first sz hmac (TT P A) (TT0 P A) n o n' a Hlw Ho Er) as (n2 & n3 & [F1 F2 F3] & En & -> & ->).
  cbn [set_out n_log] in *. 
  destruct (is_leader n2) eqn:L2.
  - destruct (F2 eq_refl) as (L1 & T2 & G2 & Me2).
    assert (Ht2 : tab (TT P A) n2).
    { apply F3; [exact (Hh k n A Hin)|]. intros ok1 ok2 rnd from m midx mlast mp mh -> Eb Ev Et _ Hm.
      rewrite (stored_nxt _ _ _ Hst) in Hm. split; [lia|]. destruct (N.eq_dec midx 0) as [->|Hz]; [now left|right].
      destruct (Hmsg _ _ _ _ _ eq_refl) as [to Hs]. destruct (gi_soup _ _ _ _ _ s HI _ _ _ Hs) as (nf & B & HB & Hg).
      destruct (gi_past _ _ _ _ _ s HI _ _ _ HB) as [HRB _]. pose proof (ri_ch _ _ _ _ _ _ _ _ _ _ _ HRB) as HcB.
      unfold gMP in Hg. cbn [snd fst] in Hg. rewrite Eb in Hg. destruct Hg as (H0 & H1 & _ & _ & H4).
      pose proof (validate_resp _ _ _ _ _ _ _ _ Eb Ev) as Hc.
      destruct (check_same n midx mh Hc Hz) as (e & Ha & ->). { pose proof (lw_next _ Hlw). rewrite (stored_nxt _ _ _ Hst) in *. lia. }
      apply (st_at_some _ _ _ _ _ Hst) in Ha. exists nf, B. split; [exact HB|]. split; [congruence|].
      destruct H4 as [H4|(e' & H4 & H5)].
      { exfalso. assert (length (e_hash e) = 32%nat) as X.
        { apply (chained_hash_len hmac A e HcA). unfold nth_entry in Ha. destruct (midx =? 0); [discriminate|]. eapply nth_error_In; eassumption. }
        rewrite H4 in X. discriminate. }
      rewrite (same_prefix hmac A B midx e e' HcA HcB (Hun _ _ _ _ _ _ Hin HB) Ha H4 H5). apply prefix_upto. }
    destruct (ended_tab sz hmac (TT P A) (TT0 P A) n2 n3 Ht2 F1 En) as (Ht3 & Hh3 & _).
    assert (G3 : lgrow (n_term n) (n_log n2) (n_log n3) /\ n_term n3 = n_term n).
    { destruct En as [->|(ok & rnd & E)]; [split; [apply lgrow_refl|assumption]|]. apply change_state_shape in E as [X1 X2 _ _ _]. rewrite T2 in *. auto. }
    destruct G3 as [G3 T3]. assert (Hp : prefix A A') by (eapply grown_prefix; [exact Hst|exact Hst'|eapply lgrow_trans; eassumption]).
    split; [apply (tab_impl (TT P A)); [intros; now apply (TT_prefix P A)|exact Ht3]|].
    revert Hh3. apply Forall_impl. intros x Hx Eb. destruct (Hx Eb) as (X1 & X2 & q & X3 & X4 & X5 & X6).
    split; [exact X1|]. split; [reflexivity || assumption|]. split; [symmetry; exact T3|]. split; [exact X2|]. split; [exact Hp|].
    exists q. split; [assumption|]. split; [exact X4|]. split; [exact X5|]. apply (TT_prefix _ _ _ _ _ _ Hp) in X6 as [_ X6].
    assert (Hlast : last_idx (n_log n3) = llen A'). { pose proof (lw_next _ Hlw') as X. cbn [set_out n_log] in X. rewrite (stored_nxt _ _ _ Hst') in X. lia. }
    rewrite Hlast, upto_all in X6 by lia. exact X6.
  - assert (Ht2 : tab (TT P A') n2) by (unfold tab; unfold is_leader in L2; destruct (n_role n2); [exact I|exact I|discriminate]).
    destruct (ended_tab sz hmac (TT P A') (TT0 P A') n2 n3 Ht2 F1 En) as (Ht3 & _ & Hq). split; [exact Ht3|].
    specialize (Hq L2). revert Hq. apply Forall_impl. intros x X Eb. contradiction.
Qed.
Lemma act_hand k o s : ginv s -> ginv (act sz hmac k o s) -> unclashed (w_past s) -> honest s ->
  (forall ok1 ok2 rnd from m, o = OReceive ok1 ok2 rnd from m -> exists to, In (from, (to, m)) (w_soup s)) ->
  honest (act sz hmac k o s) /\
  forall sent k1 to m, w_soup (act sz hmac k o s) = w_soup s ++ sent -> In (k1, (to, m)) sent ->
    k1 = k /\ exists n A n' A', lookup k (w_now s) = Some (n, A) /\ lookup k (w_now (act sz hmac k o s)) = Some (n', A') /\ n_me n' = k /\ passes (w_past s) n A n' A' (to, m).
Proof.
  intros HI HI' Hun Hh Hmsg.
  assert (Hnil : forall x : net, x = s -> forall sent k1 to m, w_soup x = w_soup s ++ sent -> In (k1, (to, m)) sent ->
    k1 = k /\ exists n A n' A', lookup k (w_now s) = Some (n, A) /\ lookup k (w_now x) = Some (n', A') /\ n_me n' = k /\ passes (w_past s) n A n' A' (to, m)).
  { intros x -> sent k1 to m E Hin. rewrite <- (app_nil_r (w_soup s)) in E at 1. apply app_inv_head in E. subst sent. destruct Hin. }
  unfold act in *. destruct (lookup k (w_now s)) as [[n A]|] eqn:El; [|split; [assumption|now apply Hnil]].
  destruct (rstep sz hmac n o) as [[n' a]|] eqn:Er; [|split; [assumption|now apply Hnil]]. cbv zeta in *.
  set (A' := regrow A (n_log n')) in *. set (s' := Net _ _ _ _ _) in *.
  assert (Hk : lookup k (w_now s') = Some (n', A')) by (unfold s'; cbn [w_now]; apply lookup_put_same).
  destruct (gi_past _ _ _ _ _ s' HI' k n' A' (gi_now _ _ _ _ _ s' HI' k n' A' Hk)) as [HR' _].
  destruct (ri_id _ _ _ _ _ _ _ _ _ _ _ HR') as [Hme _].
  destruct (step_hand s k o n A n' a HI Hun Hh El Hmsg Er (RI_lw _ _ _ _ _ _ _ _ _ _ _ HR') (ri_st _ _ _ _ _ _ _ _ _ _ _ HR')) as [Ht Hs].
  assert (Hi : incl (w_past s) (w_past s')) by (intros y Hy; unfold s'; cbn [w_past]; apply in_or_app; auto).
  split.
  - intros k1 n1 A1 H1. unfold s' in H1. cbn [w_past] in H1. apply in_app_or in H1 as [H1|[H1|[]]].
    + apply (tab_impl (TT (w_past s) A1)); [intros; eapply TT_mono; eassumption|exact (Hh _ _ _ H1)].
    + injection H1 as <- <- <-. apply (tab_impl (TT (w_past s) A')); [intros; eapply TT_mono; eassumption|exact Ht].
  - intros sent k1 to m E Hin. unfold s' in E. cbn [w_soup] in E. apply app_inv_head in E. subst sent.
    apply in_map_iff in Hin as (x & Ex & Hin). injection Ex as <- ->. split; [reflexivity|]. exists n, A, n', A'.
    split; [reflexivity|]. split; [assumption|]. split; [exact Hme|]. rewrite Forall_forall in Hs. exact (Hs _ Hin).
Qed.
Lemma step_honest s ev : ginv s -> ginv (net_step sz hmac s ev) -> unclashed (w_past s) -> honest s ->
  honest (net_step sz hmac s ev) /\
  forall k to m, sends sz hmac s ev k to m ->
    exists n A n' A', lookup k (w_now s) = Some (n, A) /\ lookup k (w_now (net_step sz hmac s ev)) = Some (n', A') /\ n_me n' = k /\ passes (w_past s) n A n' A' (to, m).
Proof.
  intros HI HI' Hun Hh.
  assert (Hnone : forall x, w_soup x = w_soup s -> forall k to m, (exists sent, w_soup x = w_soup s ++ sent /\ In (k, (to, m)) sent) ->
    exists n A n' A', lookup k (w_now s) = Some (n, A) /\ lookup k (w_now x) = Some (n', A') /\ n_me n' = k /\ passes (w_past s) n A n' A' (to, m)).
  { intros x Hx k to m (sent & E & Hin). rewrite Hx in E. rewrite <- (app_nil_r (w_soup s)) in E at 1. apply app_inv_head in E. subst sent. destruct Hin. }
  assert (Hact : forall k o, ginv (act sz hmac k o s) -> (forall ok1 ok2 rnd from m, o = OReceive ok1 ok2 rnd from m -> exists to, In (from, (to, m)) (w_soup s)) ->
    honest (act sz hmac k o s) /\ forall k1 to m, (exists sent, w_soup (act sz hmac k o s) = w_soup s ++ sent /\ In (k1, (to, m)) sent) ->
    exists n A n' A', lookup k1 (w_now s) = Some (n, A) /\ lookup k1 (w_now (act sz hmac k o s)) = Some (n', A') /\ n_me n' = k1 /\ passes (w_past s) n A n' A' (to, m)).
  { intros k o H1 H2. destruct (act_hand k o s HI H1 Hun Hh H2) as [H3 H4]. split; [assumption|]. intros k1 to m (sent & E & Hin).
    destruct (H4 _ _ _ _ E Hin) as [-> H5]. exact H5. }
  unfold sends. destruct ev as [k o|k j ok1 ok2 rnd|k j]; cbn [net_step] in *.
  - destruct o; try (apply Hact; [assumption|discriminate]). split; [assumption|now apply Hnone].
  - destruct (nth_error (w_soup s) j) as [[from [to m]]|] eqn:Ej; [|split; [assumption|now apply Hnone]].
    destruct (match to with Some p => beq p k | None => _ end); [|split; [assumption|now apply Hnone]]. apply nth_error_In in Ej.
    apply Hact; [assumption|]. intros a1 a2 r f m' E. injection E as <- <- <- <- <-. eauto.
  - destruct (nth_error (w_past s) j) as [[k' x]|]; [|split; [assumption|now apply Hnone]]. destruct (beq k' k); [|split; [assumption|now apply Hnone]].
    split; [exact Hh|now apply Hnone].
Qed.
Lemma start_honest group xs s : start sz hmac group M sm L0 xs = Ret s -> honest s.
Proof.
  intros E. unfold start in E. apply bind_inv in E as (p & E1 & E). injection E as <-. intros k n A Hin. cbn [w_past] in *.
  destruct (seated_in sz hmac M sm L0 group xs p E1) as [_ Hs]. destruct (Hs _ _ _ Hin) as (x & Hx & _ & En & _).
  unfold seat_node, new_node in En. cbv zeta in En. set (n0 := Node group _ M [] _ _ 0 None _ _ _ _ sm []) in En.
  destruct (_ && _)%bool; [|injection En as <-; exact I].
  apply bind_inv in En as (n1 & E2 & En). apply bind_inv in En as (n2 & E3 & En). assert (n2 = n) as <- by (destruct (n_out n2); [now injection En|discriminate]).
  assert (Hq : quiet n0) by constructor.
  destruct (election_first (TT p A) _ n0 OTake n0 n1 (first_refl (TT p A) n0 OTake Hq) E2) as [F1 F2 F3].
  assert (Ht : tab (TT p A) n1) by (apply F3; [exact I|intros ? ? ? ? ? ? ? ? ? X; discriminate X]).
  apply (change_state_tab sz hmac (TT p A) (TT0 p A) _ _ n1 n2 Ht F1 E3).
Qed.
End Group.

Lemma reached_honest sz hmac M sm evs ev s : net_reached sz hmac M sm evs s -> changes_overlap M sm (evs ++ [ev]) -> no_clash s ->
  forall k to m, sends sz hmac s ev k to m ->
    exists n A n' A', lookup k (w_now s) = Some (n, A) /\ lookup k (w_now (net_step sz hmac s ev)) = Some (n', A') /\ n_me n' = k /\ passes (w_past s) n A n' A' (to, m).
Proof.
  intros (group & L0 & xs & s0 & (H1 & H2 & H3 & H4 & H5 & H6 & H7) & E & ->) (F & HF & Hask & Hov) Hun.
  destruct (moved_parts M sm F (evs ++ [ev]) H1 HF Hask Hov) as (HM & Hw & Ho & Hx & Hn & Hff). apply Forall_app in Hff as [Hff Hfe]. inversion Hfe as [|? ? Hf1 _]; subst.
  assert (G0 : ginv hmac sm L0 (wfF F) (within F) s0) by (eapply (start_inv sz hmac M); eassumption).
  assert (S0 : honest s0) by (eapply (start_honest sz hmac M sm L0); eassumption). clear E H1 H2 H3 H5 H6 H7 Hask Hfe.
  enough (Hgo : ginv hmac sm L0 (wfF F) (within F) (net_run sz hmac s0 evs) /\ honest (net_run sz hmac s0 evs)).
  { destruct Hgo as [G S]. apply (step_honest sz hmac sm L0 F); auto. eapply (step_inv sz hmac M); eauto. }
  revert s0 G0 S0 Hun. induction evs as [|e evs IH]; intros s0 G0 S0 Hun; cbn [net_run fold_left] in *; [auto|].
  inversion Hff as [|? ? Hc1 Hc2]; subst.
  assert (U0 : unclashed (w_past s0)).
  { intros k1 n1 A1 k2 n2 A2 H3 H5.
    assert (Hi : incl (w_past s0) (w_past (net_run sz hmac (net_step sz hmac s0 e) evs))).
    { eapply incl_tran; [apply (step_past sz hmac s0 e)|apply run_past]. }
    apply (Hun k1 n1 A1 k2 n2 A2); apply Hi; assumption. }
  assert (G1 : ginv hmac sm L0 (wfF F) (within F) (net_step sz hmac s0 e)) by (eapply (step_inv sz hmac M); eauto).
  apply IH; auto. apply (step_honest sz hmac sm L0 F s0 e G0 G1 U0 S0).
Qed.
