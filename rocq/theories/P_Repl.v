(* C31: a joining replica ends up with the group's database. *)
From Verif Require Import P_DB4 ReplDB ReplSpec ReplProofs ReplDBProofs DB4Spec DB4Transfer.

(* The source held, at some moment of the history, exactly what the destination holds in
   the end: the same database at the same place in the log, and the same membership. *)
Definition ends_as_source_was (D : dbi) sz tid chunk pipeline msg_size s max mem h (d : dst D) : Prop :=
  exists h1 h2 w1 rs1, h = h1 ++ h2 /\ exec (rstep D sz tid chunk pipeline msg_size) (transfer_start D s max mem) h1 = Ret (w1, rs1) /\
    same_at D d (w_src D w1).
(* The claim, for transfers that meet [cond]. *)
Definition transfer_claim (D : dbi) (start : src D -> Prop) (cond : N -> list rop -> list rres -> Prop) : Prop :=
  forall sz tid chunk pipeline msg_size s max mem h w rs, start s ->
    exec (rstep D sz tid chunk pipeline msg_size) (transfer_start D s max mem) h = Ret (w, rs) -> cond tid h rs -> w_done D w = true ->
    ends_as_source_was D sz tid chunk pipeline msg_size s max mem h (w_dst D w).
Definition orderly (tid : N) (h : list rop) (rs : list rres) : Prop := in_order tid h rs /\ kept_unsent rs.

(* For each database, any source that was reached by committed entries and has some in
   its log, any chunk size, pipeline depth and size of messages, any interleaving of
   writes, messages, losses and log truncation: if the messages (and their answers) are
   handled in the order they were sent, and the source never dropped a log entry before
   it sent it, then a destination that finishes holds what the source held when it had
   the same last log entry.  [parse] is the parser of the database's log entries: the
   empty string is the message without fields. *)
Theorem C31_db2_ends_as_source_partial : forall parse, parse [] = Some (Log2 [] ReqUnset) ->
  transfer_claim (dbi2 parse) (member_state (dbi2 parse)) orderly.
Proof. intros parse Hp sz tid chunk pipeline msg_size s max mem h w rs Hs E [Ho Hk] Hd. eapply transfer_same; eauto. now apply laws2. Qed.
Theorem C31_db3_ends_as_source_partial : forall smul parse, parse [] = Some (Log3 [] Unset3 []) ->
  transfer_claim (dbi3 smul parse) (member_state (dbi3 smul parse)) orderly.
Proof. intros smul parse Hp sz tid chunk pipeline msg_size s max mem h w rs Hs E [Ho Hk] Hd. eapply transfer_same; eauto. now apply laws3. Qed.
Theorem C31_db4_ends_as_source_partial : forall c parse, add_closed c -> parse [] = Some (Log4 [] Unset4) ->
  (forall x l, parse x = Some l -> typed4 (In4 true l) = true) ->
  transfer_claim (dbi4 c parse) (member_state (dbi4 c parse)) orderly.
Proof. intros c parse Ha Hp Ht sz tid chunk pipeline msg_size s max mem h w rs Hs E [Ho Hk] Hd. eapply transfer_same; eauto. now apply laws4. Qed.
Theorem C31_db5_ends_as_source_partial : forall hmac parse, parse [] = Some (Log5 [] Unset5) ->
  transfer_claim (dbi5 hmac parse) (member_state (dbi5 hmac parse)) orderly.
Proof. intros hmac parse Hp sz tid chunk pipeline msg_size s max mem h w rs Hs E [Ho Hk] Hd. eapply transfer_same; eauto. now apply laws5. Qed.

(* --- examples and counterexamples: DB2 with short log entries -------------- *)
Definition x_log (b : bytes) : option log2 :=
  match b with
  | [] => Some (Log2 [] ReqUnset)
  | [1; k] => Some (Log2 (repeat k 16) (Backup (repeat k 16) (repeat 0 32) 5))
  | [2; k] => Some (Log2 (repeat k 16) Delete)
  | _ => None
  end.
Definition XD : dbi := dbi2 x_log.
Definition x_e (d : bytes) : entry := Entry 1 (IData d) (zeros 32).
Definition x_sz : sizes := Sizes 10 10 10 10 10.
(* 250 bytes hold two rows of 105; log entries of the example take 50 *)
Definition x_size (p : push) : N := 50 * N.of_nat (length (p_entries p)).
Definition x_db : db2 := Eval vm_compute in match apply_all XD (map x_e [[1; 2]; [1; 4]; [1; 6]; [1; 8]]) [] with Ret d => d | Crash => [] end.
Definition x_src (n : nat) : src XD := Src XD (RLog (skipn (4 - n) (map x_e [[1; 2]; [1; 4]; [1; 6]; [1; 8]])) (5 - N.of_nat n) 0 1000) x_db [].
Notation x_run chunk pipe s h := (exec (rstep XD x_sz 7 chunk pipe x_size) (transfer_start XD s 5000 []) h).

Lemma x_member n : (1 <= n <= 4)%nat -> member_state XD (x_src n).
Proof.
  intros H. split; [|split].
  - exists (map x_e [[1; 2]; [1; 4]; [1; 6]; [1; 8]]). vm_compute. reflexivity.
  - destruct n as [|[|[|[|[|n]]]]]; try lia; discriminate.
  - cbn [x_src s_log l_oldest]. lia.
Qed.

(* a transfer with writes below and above the row it has come to, and a deletion *)
Definition ex_hist : list rop :=
  [RRequest; SWrite (x_e [1; 3]); RHandle 0; SWrite (x_e [2; 4]); RAnswer 0; SWrite (x_e [1; 9]); RHandle 1; STruncate; RAnswer 1; RHandle 2; RAnswer 2; RHandle 3; RAnswer 3;
   RForeign (Push 8 0 0 [] [] true []); SWrite (x_e [2; 2]); RHandle 4; RAnswer 4; RFinish].
Definition ex_out := Eval vm_compute in x_run 250 1 (x_src 2) ex_hist.
Example ex_transfer : exists w rs, ex_out = Ret (w, rs) /\ in_order 7 ex_hist rs /\ kept_unsent rs /\ w_done XD w = true /\
  map fst (d_db XD (w_dst XD w)) = map (fun k => repeat k 16) [2; 3; 6; 8; 9] /\ last_idx (d_log XD (w_dst XD w)) = 7 /\ last_idx (s_log XD (w_src XD w)) = 8.
Proof.
  unfold ex_out. do 2 eexists. split; [reflexivity|]. repeat split; try reflexivity.
  - cbv [ex_hist]. repeat constructor; cbn; discriminate.
  - intros r o p Hr Ho. cbn [In] in Hr. repeat destruct Hr as [<-|Hr]; try contradiction; cbn [r_sent silent In] in Ho;
      repeat destruct Ho as [Ho|Ho]; try contradiction; inversion Ho; subst; cbn; discriminate.
Qed.

(* the hypotheses of the theorem about DB4, with P_DB4's toy group *)
Definition x4_parse (b : bytes) : option log4 :=
  match b with [] => Some (Log4 [] Unset4) | [1] => Some (i4_log (x4_create 5)) | [2] => Some (i4_log x4_restore) | _ => None end.
Example ex_db4 : add_closed toy /\ x4_parse [] = Some (Log4 [] Unset4) /\ (forall x l, x4_parse x = Some l -> typed4 (In4 true l) = true) /\
  exists s db, member_state (dbi4 toy x4_parse) s /\ s_db _ s = db /\ account4 x4_id db <> None.
Proof.
  split; [exact toy_add_closed|]. split; [reflexivity|]. split.
  - intros x l H. destruct x as [|a [|b x]]; cbn in H; [|destruct a as [|[[]|[]|]]|destruct a as [|[[]|[]|]]]; inversion H; reflexivity.
  - set (D := dbi4 toy x4_parse). set (es := map x_e [[1]; [2]]).
    set (db := match apply_all D es empty4 with Ret d => d | Crash => empty4 end).
    exists (Src D (RLog es 1 0 1000) db []), db. split; [|split; [reflexivity|vm_compute; discriminate]].
    split; [exists es; vm_compute; reflexivity|]. split; [discriminate|]. cbn. lia.
Qed.

(* a moment of a finite history *)
Lemma no_moment (P : src XD -> bool) chunk pipe s h (d : dst XD) :
  (forall s1, same_at XD d s1 -> P s1 = true) ->
  forallb (fun k => match x_run chunk pipe s (firstn k h) with Ret (w1, _) => negb (P (w_src XD w1)) | Crash => true end) (seq 0 (S (length h))) = true ->
  ~ ends_as_source_was XD x_sz 7 chunk pipe x_size s 5000 [] h d.
Proof.
  intros HP H (h1 & h2 & w1 & rs1 & Eh & E & Sm). rewrite forallb_forall in H.
  specialize (H (length h1)). subst h. rewrite firstn_app, Nat.sub_diag, firstn_all, firstn_O, app_nil_r, E, (HP _ Sm) in H.
  assert (In (length h1) (seq 0 (S (length (h1 ++ h2))))) by (apply in_seq; rewrite app_length; lia).
  now specialize (H H0).
Qed.

(* (1) REFUTED without [kept_unsent]: the source's log drops entries that it has applied
   and not yet sent (log.cc:143-150 knows nothing of transfers), SendNextReplicationState
   finds nothing at the index it has come to (core.cc:1276), takes this for the end of
   the log and sends the rows.  The destination finishes at log position 3 with the rows
   of position 6. *)
Definition tr_hist : list rop :=
  [RRequest; SWrite (x_e [1; 3]); SWrite (x_e [2; 6]); STruncate; STruncate; STruncate; STruncate; STruncate; RHandle 0; RAnswer 0; RHandle 1; RAnswer 1;
   RHandle 2; RAnswer 2; RHandle 3; RAnswer 3; RHandle 4; RAnswer 4; RHandle 5; RAnswer 5; RFinish].
Definition tr_out := Eval vm_compute in x_run 120 1 (x_src 4) tr_hist.
Lemma tr_run : x_run 120 1 (x_src 4) tr_hist = tr_out.
Proof. vm_cast_no_check (eq_refl tr_out). Qed.
Lemma tr_facts : match tr_out with
  | Ret (w, rs) => in_order 7 tr_hist rs /\ w_done XD w = true /\ last_idx (d_log XD (w_dst XD w)) = 3
  | Crash => False end.
Proof. unfold tr_out. split; [|now split]. split; [reflexivity|]. split; [reflexivity|]. repeat constructor. Qed.
Lemma tr_never : forallb (fun k => match x_run 120 1 (x_src 4) (firstn k tr_hist) with
  | Ret (w1, _) => negb (last_idx (s_log XD (w_src XD w1)) =? 3) | Crash => true end) (seq 0 (S (length tr_hist))) = true.
Proof. vm_cast_no_check (eq_refl true). Qed.
Theorem C31_dropped_log_refuted : ~ transfer_claim XD (member_state XD) in_order.
Proof.
  intros C. pose proof tr_run as Hx. pose proof tr_facts as Hf. destruct tr_out as [[w rs]|]; [|contradiction].
  destruct Hf as (Ho & Hd & Hl).
  pose proof (C x_sz 7 120 1%nat x_size (x_src 4) 5000 [] tr_hist w rs (x_member 4 ltac:(lia)) Hx Ho Hd) as Hc.
  revert Hc. apply (no_moment (fun s1 => last_idx (s_log XD s1) =? 3)); [|exact tr_never].
  intros s1 (_ & L & _). now rewrite <- L, Hl.
Qed.
(* what the destination has: entry 5 has been applied, its log ends at 3 *)
Example ex_dropped : exists w rs, tr_out = Ret (w, rs) /\ last_idx (d_log XD (w_dst XD w)) = 3 /\
  map (fun x => hd 0 (fst x)) (d_db XD (w_dst XD w)) = [2; 3; 4; 8].
Proof. unfold tr_out. do 2 eexists. split; [reflexivity|]. now split. Qed.

(* (2) REFUTED without the order of messages: the counter of the destination moves on
   even when a message is refused (core.cc:1365), so after two refused messages the
   third is taken; if its answer is the first that the source sees, the transfer ends.
   The session between the enclaves (C38) keeps their order; nothing here does. *)
Definition ro_hist : list rop := [RRequest; RHandle 1; RHandle 0; RHandle 2; RAnswer 2; RFinish].
Definition ro_out := Eval vm_compute in x_run 250 3 (x_src 1) ro_hist.
Lemma ro_run : x_run 250 3 (x_src 1) ro_hist = ro_out.
Proof. vm_cast_no_check (eq_refl ro_out). Qed.
Lemma ro_facts : match ro_out with
  | Ret (w, rs) => (Forall (no_intruder 7) ro_hist /\ kept_unsent rs) /\ w_done XD w = true /\ last_idx (d_log XD (w_dst XD w)) = 0
  | Crash => False end.
Proof.
  unfold ro_out. split; [|now split]. split; [repeat constructor|].
  intros r o p Hr Hs. cbn [In] in Hr. repeat destruct Hr as [<-|Hr]; try contradiction; cbn [r_sent silent In] in Hs;
    repeat destruct Hs as [Hs|Hs]; try contradiction; inversion Hs; subst; cbn; discriminate.
Qed.
Lemma ro_never : forallb (fun k => match x_run 250 3 (x_src 1) (firstn k ro_hist) with
  | Ret (w1, _) => negb (last_idx (s_log XD (w_src XD w1)) =? 0) | Crash => true end) (seq 0 (S (length ro_hist))) = true.
Proof. vm_cast_no_check (eq_refl true). Qed.
Theorem C31_reordered_refuted :
  ~ transfer_claim XD (member_state XD) (fun tid h rs => Forall (no_intruder tid) h /\ kept_unsent rs).
Proof.
  intros C. pose proof ro_run as Hx. pose proof ro_facts as Hf. destruct ro_out as [[w rs]|]; [|contradiction].
  destruct Hf as (Ho & Hd & Hl).
  pose proof (C x_sz 7 250 3%nat x_size (x_src 1) 5000 [] ro_hist w rs (x_member 1 ltac:(lia)) Hx Ho Hd) as Hc.
  revert Hc. apply (no_moment (fun s1 => last_idx (s_log XD s1) =? 0)); [|exact ro_never].
  intros s1 (_ & L & _). now rewrite <- L, Hl.
Qed.
Example ex_reordered : exists w rs, ro_out = Ret (w, rs) /\ w_done XD w = true /\
  map (fun x => hd 0 (fst x)) (d_db XD (w_dst XD w)) = [8] /\ map (fun x => hd 0 (fst x)) (s_db XD (w_src XD w)) = [2; 4; 6; 8].
Proof. unfold ro_out. do 2 eexists. split; [reflexivity|]. now repeat split. Qed.

(* (3) REFUTED for a source with an empty log (a group that has not yet had its first
   entry): its oldest index is 0 (log.cc:99-102), the destination sets its next index to 0
   (core.cc:1380-1382), and the same entry gets index 1 at the source and 0 at the
   destination. *)
Definition em_hist : list rop := [RRequest; RHandle 0; RAnswer 0; RFinish].
Definition em_out := Eval vm_compute in x_run 250 1 (Src XD (empty_log 1000) [] []) em_hist.
Lemma em_run : x_run 250 1 (Src XD (empty_log 1000) [] []) em_hist = em_out.
Proof. vm_cast_no_check (eq_refl em_out). Qed.
Theorem C31_empty_log_refuted : exists w rs, x_run 250 1 (Src XD (empty_log 1000) [] []) em_hist = Ret (w, rs) /\
  in_order 7 em_hist rs /\ w_done XD w = true /\
  exists ls ld, let e := x_e [1; 2] in
    append x_sz e 0 (s_log XD (w_src XD w)) = Ret (ls, L_OK) /\ at_idx ls 1 = Some e /\
    append x_sz e 0 (d_log XD (w_dst XD w)) = Ret (ld, L_OK) /\ at_idx ld 1 = None /\ at_idx ld 0 = Some e.
Proof.
  rewrite em_run. unfold em_out. do 2 eexists. split; [reflexivity|].
  split; [|split; [reflexivity|]].
  - split; [reflexivity|]. split; [reflexivity|]. repeat constructor.
  - do 2 eexists. repeat split; vm_compute; reflexivity.
Qed.
Print Assumptions C31_db2_ends_as_source_partial.
Print Assumptions C31_db3_ends_as_source_partial.
Print Assumptions C31_db4_ends_as_source_partial.
Print Assumptions C31_db5_ends_as_source_partial.
Print Assumptions C31_dropped_log_refuted.
Print Assumptions C31_reordered_refuted.
Print Assumptions C31_empty_log_refuted.
