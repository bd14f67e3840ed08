(* C48, C49: the transport of peer messages between hosts. *)
From Verif Require Import HostLinkSpec HostLinkProofs.

(* C48, order and multiplicity, for every schedule of sends, drops, reconnections,
   abandonments and failing enclaves: what the receiving enclave gets is what was sent,
   in order, each at most once.  (Sequence numbers are compared modulo 2^32.) *)
Theorem C48_in_order_at_most_once : forall buffer h l rs,
  short h -> exec (lstep buffer) no_link h = Ret (l, rs) -> subseq (got rs) (sent rs).
Proof. exact in_order. Qed.

(* every history runs: the theorems speak of all of them *)
Theorem C48_total : forall buffer h l, exists l' rs, exec (lstep buffer) l h = Ret (l', rs).
Proof.
  intros buffer. induction h as [|o h IH]; intros l; [exists l, []; reflexivity|]. cbn [exec].
  destruct (lstep buffer l o) as [[l1 r]|] eqn:E; [|discriminate]. destruct (IH l1) as (l2 & rs & E2). rewrite E2. eauto.
Qed.

Definition m_syn (k : N) : pmsg := PMsg KSyn [k].
Definition m_data (k : N) : pmsg := PMsg KData [k].

(* a connection that drops with messages unread; after the reconnection they are sent again *)
Definition x_orderly : list lop :=
  [LQueue (m_syn 1); LConnect; LSend; LDeliver true; LAck;
   LQueue (m_data 2); LQueue (m_data 3); LQueue (m_data 4); LSend; LSend; LDeliver true; LServerDrop; LSend; LClientDrop;
   LConnect; LDeliver true; LDeliver true].
Example ex_orderly_run : exists l rs, exec (lstep 10) no_link x_orderly = Ret (l, rs) /\ short x_orderly /\
  sent rs = [m_syn 1; m_data 2; m_data 3; m_data 4] /\ got rs = [m_syn 1; m_data 2; m_data 3; m_data 4].
Proof. eexists _, _. split; [vm_compute; reflexivity|]. split; [unfold short; vm_compute; reflexivity|split; reflexivity]. Qed.

(* C48, prefixes, fails: a Syn whose connection drops before it is read is sent again on
   the next connection, but the numbers that follow are those of the session before.  The
   messages after it are taken for duplicates; so is the Syn of a later session, whose
   next message is then delivered. *)
Definition x_stale : list lop :=
  [LQueue (m_syn 1); LConnect; LSend; LServerDrop; LClientDrop; LConnect; LDeliver true; LAck;
   LQueue (m_data 2); LSend; LDeliver true; LAck].
Definition x_headless : list lop :=
  x_stale ++ [LQueue (m_syn 3); LSend; LDeliver true; LAck; LQueue (m_data 4); LSend; LDeliver true].
Definition run_of (h : list lop) : link * list lres := match exec (lstep 10) no_link h with Ret x => x | Crash => (no_link, []) end.
Definition headless_run : link * list lres := Eval vm_compute in run_of x_headless.
Definition stale_run : link * list lres := Eval vm_compute in run_of x_stale.
Lemma headless_runs : exec (lstep 10) no_link x_headless = Ret headless_run.
Proof. vm_compute. reflexivity. Qed.
Lemma stale_runs : exec (lstep 10) no_link x_stale = Ret stale_run.
Proof. vm_compute. reflexivity. Qed.
Theorem C48_session_prefix_refuted :
  ~ (forall buffer h l rs, short h -> exec (lstep buffer) no_link h = Ret (l, rs) -> exists b, sessions (sent rs) (got rs) b).
Proof.
  intros H. destruct (H 10 x_headless (fst headless_run) (snd headless_run)) as (b & Hb); [unfold short; vm_compute; reflexivity|exact headless_runs|].
  change (sent (snd headless_run)) with ([m_syn 1; m_data 2; m_syn 3] ++ [m_data 4]) in Hb. change (got (snd headless_run)) with ([m_syn 1] ++ [m_data 4]) in Hb.
  apply sessions_next in Hb; [|reflexivity|cbn; intros [X|[X|[X|[]]]]; discriminate].
  apply (sessions_true [m_syn 1; m_data 2] [] (m_syn 3) (m_syn 1)) in Hb. discriminate.
Qed.

(* It holds when the sender is not abandoned, no enclave fails, and connections are made
   again only when the messages that begin sessions have been read. *)
Theorem C48_session_prefix_partial : forall buffer h l rs,
  N.of_nat (length h) + 1 < 2 ^ 31 -> orderly buffer h -> none_of is_abandon h -> none_of enclave_fails h ->
  exec (lstep buffer) no_link h = Ret (l, rs) -> exists b, sessions (sent rs) (got rs) b.
Proof. exact in_sessions. Qed.
(* a state seen at each of its connections *)
Fixpoint cuts (h : list lop) : list (list lop) :=
  match h with [] => [] | o :: h' => match o with LConnect => [[]] | _ => [] end ++ map (cons o) (cuts h') end.
Lemma cuts_all h : forall h1 h2, h = h1 ++ LConnect :: h2 -> In h1 (cuts h).
Proof.
  induction h as [|o h IH]; intros h1 h2 E; [destruct h1; discriminate|]. cbn. apply in_or_app.
  destruct h1 as [|o1 h1]; injection E as -> E; [left; now left|right; apply in_map; eauto].
Qed.
Definition settledb (l : link) : bool := forallb (fun x => (negb (establishing (snd x)) || (cmp (fst x) (h_seen l) <=? 0)%Z)%bool) (h_pending l).
Lemma orderly_by buffer h : forallb (fun h1 => match exec (lstep buffer) no_link h1 with Ret (l, _) => settledb l | Crash => true end) (cuts h) = true -> orderly buffer h.
Proof.
  intros H h1 h2 l rs E E1 s m Hin He. rewrite forallb_forall in H. specialize (H h1 (cuts_all h h1 h2 E)). rewrite E1 in H.
  unfold settledb in H. rewrite forallb_forall in H. specialize (H (s, m) Hin). cbn in H. rewrite He in H. cbn in H. now apply Z.leb_le.
Qed.
Example ex_orderly : orderly 10 x_orderly /\ none_of is_abandon x_orderly /\ none_of enclave_fails x_orderly.
Proof. split; [apply orderly_by; vm_compute; reflexivity|]. split; intros o Ho; repeat (destruct Ho as [<-|Ho]; [reflexivity|]); contradiction. Qed.

(* C49 fails: a message is sent and acknowledged, no reset is reported, and it is not
   delivered, then or ever (unless it is sent again). *)
Theorem C49_no_silent_loss_refuted : exists buffer h l rs m,
  short h /\ exec (lstep buffer) no_link h = Ret (l, rs) /\ none_of is_abandon h /\ none_of enclave_fails h /\
  In m (sent rs) /\ h_up l = true /\ h_pending l = [] /\ (forall r, In r rs -> r_reset r = false) /\ ~ In m (got rs) /\
  forall h2 l2 rs2, ~ In (LQueue m) h2 -> exec (lstep buffer) l h2 = Ret (l2, rs2) -> ~ In m (got rs2).
Proof.
  exists 10, x_stale, (fst stale_run), (snd stale_run), (m_data 2). split; [unfold short; vm_compute; reflexivity|]. split; [exact stale_runs|].
  split; [intros o Ho; repeat (destruct Ho as [<-|Ho]; [reflexivity|]); contradiction|].
  split; [intros o Ho; repeat (destruct Ho as [<-|Ho]; [reflexivity|]); contradiction|].
  split; [vm_compute; auto|]. split; [reflexivity|]. split; [reflexivity|].
  split; [intros r Hr; repeat (destruct Hr as [<-|Hr]; [reflexivity|]); contradiction|].
  split; [vm_compute; intros [X|[]]; discriminate|].
  intros h2 l2 rs2 Hn E2. eapply nowhere_exec; [|exact Hn|exact E2]. repeat split; intros [].
Qed.
(* and when the enclave does not take a message: it is acknowledged all the same *)
Definition x_fails : list lop := [LQueue (m_syn 1); LConnect; LSend; LDeliver true; LQueue (m_data 2); LSend; LDeliver false; LAck; LAck].
Definition fails_run : link * list lres := Eval vm_compute in run_of x_fails.
Lemma fails_runs : exec (lstep 10) no_link x_fails = Ret fails_run.
Proof. vm_compute. reflexivity. Qed.
Theorem C49_enclave_failure_refuted : exists buffer h l rs m,
  short h /\ exec (lstep buffer) no_link h = Ret (l, rs) /\ orderly buffer h /\ none_of is_abandon h /\
  In m (sent rs) /\ h_pending l = [] /\ (forall r, In r rs -> r_reset r = false) /\ ~ In m (got rs) /\
  forall h2 l2 rs2, ~ In (LQueue m) h2 -> exec (lstep buffer) l h2 = Ret (l2, rs2) -> ~ In m (got rs2).
Proof.
  exists 10, x_fails, (fst fails_run), (snd fails_run), (m_data 2). split; [unfold short; vm_compute; reflexivity|]. split; [exact fails_runs|].
  split; [apply orderly_by; vm_compute; reflexivity|].
  split; [intros o Ho; repeat (destruct Ho as [<-|Ho]; [reflexivity|]); contradiction|].
  split; [vm_compute; auto|]. split; [reflexivity|].
  split; [intros r Hr; repeat (destruct Hr as [<-|Hr]; [reflexivity|]); contradiction|].
  split; [vm_compute; intros [X|[]]; discriminate|].
  intros h2 l2 rs2 Hn E2. eapply nowhere_exec; [|exact Hn|exact E2]. repeat split; intros [].
Qed.

(* In the orderly histories nothing is lost: what was sent is delivered, or belongs to a
   session that a later one replaced, or is kept; and a reconnection delivers what is kept. *)
Theorem C49_no_silent_loss_partial : forall buffer h l rs,
  N.of_nat (length h) + 2 < 2 ^ 31 -> orderly buffer h -> none_of is_abandon h -> none_of enclave_fails h ->
  exec (lstep buffer) no_link h = Ret (l, rs) ->
  (exists s1 a, sent rs = s1 ++ a ++ missing l /\ sessions s1 (got rs) true /\
     (a = [] \/ exists m u, missing l = m :: u /\ establishing m = true)) /\
  (exists l' rs', exec (lstep buffer) l (LClientDrop :: LConnect :: repeat (LDeliver true) (length (missing l))) = Ret (l', rs') /\
     got rs' = missing l /\ missing l' = []).
Proof. exact nothing_lost. Qed.
Example ex_kept : exists l rs, exec (lstep 10) no_link (firstn 14 x_orderly) = Ret (l, rs) /\ missing l = [m_data 3; m_data 4] /\ got rs = [m_syn 1; m_data 2].
Proof. eexists _, _. split; [vm_compute; reflexivity|]. split; reflexivity. Qed.
Example ex_kept_orderly : orderly 10 (firstn 14 x_orderly) /\ none_of is_abandon (firstn 14 x_orderly) /\ none_of enclave_fails (firstn 14 x_orderly).
Proof. split; [apply orderly_by; vm_compute; reflexivity|]. split; intros o Ho; repeat (destruct Ho as [<-|Ho]; [reflexivity|]); contradiction. Qed.

(* What Send accepted is sent in order, as long as no message that begins or resets a
   session replaces the queue and the peer is not abandoned. *)
Theorem C49_accepted_sent_in_order : forall buffer h1 h2 l1 rs1 l2 rs2,
  exec (lstep buffer) no_link h1 = Ret (l1, rs1) -> exec (lstep buffer) l1 h2 = Ret (l2, rs2) -> none_of replaces h2 ->
  h_queue l1 ++ accepted h2 rs2 = sent rs2 ++ h_queue l2.
Proof. exact accepted_in_order. Qed.
(* A message that Send does not accept is reported as a reset, unless it is a reset itself. *)
Theorem C49_refused_reported : forall buffer l m l' r,
  lstep buffer l (LQueue m) = Ret (l', r) -> resets m = false -> r_accepted r = negb (r_reset r).
Proof. exact refused_reported. Qed.
Example ex_refused : exists l rs l' r, exec (lstep 1) no_link [LQueue (m_data 1)] = Ret (l, rs) /\ lstep 1 l (LQueue (m_data 2)) = Ret (l', r) /\ r_reset r = true.
Proof. eexists _, _, _, _. split; [vm_compute; reflexivity|]. split; [vm_compute; reflexivity|reflexivity]. Qed.

Print Assumptions C48_in_order_at_most_once.
Print Assumptions C48_total.
Print Assumptions C48_session_prefix_refuted.
Print Assumptions C48_session_prefix_partial.
Print Assumptions C49_no_silent_loss_refuted.
Print Assumptions C49_enclave_failure_refuted.
Print Assumptions C49_no_silent_loss_partial.
Print Assumptions C49_accepted_sent_in_order.
Print Assumptions C49_refused_reported.
