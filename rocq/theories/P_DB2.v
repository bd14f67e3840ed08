(* Properties of the SVR2 store (DB2).  Vocabulary: DB2Spec.v.
   [exec2 [] h = Ret (m, rs)] runs the inputs [h] on an empty database; [rs] has
   one answer per input ([None] for an input that fails validation); [i_vok] of
   an input is the integrity tree's verdict on the row at that moment. *)
From Verif Require Import DB2 DB2Spec DB2Proofs DB2Rep DBHashProofs TransferProofs.

(* C01.  After Backup (max_tries t), Expose, and n wrong guesses, the next wrong
   guess is answered PIN_MISMATCH with t-n-1 tries left if that is positive, and
   MISSING otherwise. *)
Theorem C01_guess_limit :
  forall h0 h1 h2 id data pin t vb x guess m rs,
  legal (Log2 id (Backup data pin t)) = true ->
  legal (Log2 id (Expose x)) = true -> is_prefix data x = true ->
  legal (Log2 id (Restore guess)) = true -> guess <> pin ->
  none_of (is_backup id) (h1 ++ h2) -> none_of (is_delete id) (h1 ++ h2) ->
  none_of (good_expose id data) h1 ->
  exec2 [] (h0 ++ In2 vb (Log2 id (Backup data pin t)) :: h1
            ++ In2 true (Log2 id (Expose x)) :: h2
            ++ [In2 true (Log2 id (Restore guess))]) = Ret (m, rs) ->
  let n := count (wrong_guess id pin) h2 in
  last_answer rs = Some (if n + 1 <? t then RspRestore RS_PIN_MISMATCH [] (t - n - 1)
                         else RspRestore RS_MISSING [] 0).
Proof.
  intros h0 h1 h2 id data pin t vb x guess m rs L1 L2 L3 L4 Hne H1 H2 H3 HE n.
  rewrite (guess_answer _ _ _ _ _ _ _ _ _ _ _ _ _ L1 L2 L3 L4 H1 H2 H3 HE); fold n.
  apply beq_neq in Hne; rewrite Hne; cbn [negb].
  destruct (N.ltb_spec n t), (N.ltb_spec (n + 1) t); try reflexivity; lia.
Qed.

(* C02.  The right PIN gets the data as long as fewer than t wrong guesses were
   made, and MISSING afterwards. *)
Theorem C02_right_pin :
  forall h0 h1 h2 id data pin t vb x m rs,
  legal (Log2 id (Backup data pin t)) = true ->
  legal (Log2 id (Expose x)) = true -> is_prefix data x = true ->
  none_of (is_backup id) (h1 ++ h2) -> none_of (is_delete id) (h1 ++ h2) ->
  none_of (good_expose id data) h1 ->
  exec2 [] (h0 ++ In2 vb (Log2 id (Backup data pin t)) :: h1
            ++ In2 true (Log2 id (Expose x)) :: h2
            ++ [In2 true (Log2 id (Restore pin))]) = Ret (m, rs) ->
  let n := count (wrong_guess id pin) h2 in
  last_answer rs = Some (if n <? t then RspRestore RS_OK data (t - n)
                         else RspRestore RS_MISSING [] 0).
Proof.
  intros h0 h1 h2 id data pin t vb x m rs L1 L2 L3 H1 H2 H3 HE n.
  assert (L4 : legal (Log2 id (Restore pin)) = true).
  { revert L1; unfold legal; cbn [l_id l_req]. lia. }
  rewrite (guess_answer _ _ _ _ _ _ _ _ _ _ _ _ _ L1 L2 L3 L4 H1 H2 H3 HE); fold n.
  rewrite beq_refl; cbn [negb]. destruct (n <? t); reflexivity.
Qed.

(* C02.  Conversely an OK answer means: the account's last Backup stored exactly
   this data under exactly this PIN, it was exposed since, not deleted since, and
   fewer than max_tries wrong guesses were made since. *)
Theorem C02_ok_means_right_pin :
  forall h id guess v m rs d k,
  exec2 [] (h ++ [In2 v (Log2 id (Restore guess))]) = Ret (m, rs) ->
  last_answer rs = Some (RspRestore RS_OK d k) ->
  exists h0 vb t h1 x h2,
    h = h0 ++ In2 vb (Log2 id (Backup d guess t)) :: h1 ++ In2 true (Log2 id (Expose x)) :: h2 /\
    legal (Log2 id (Backup d guess t)) = true /\
    is_prefix d x = true /\
    none_of (is_backup id) (h1 ++ h2) /\ none_of (is_delete id) (h1 ++ h2) /\
    count (wrong_guess id guess) h2 < t /\
    k = t - count (wrong_guess id guess) h2.
Proof. exact restore_ok_history. Qed.

Theorem C02_no_data_otherwise :
  forall h id guess v m rs s d k,
  exec2 [] (h ++ [In2 v (Log2 id (Restore guess))]) = Ret (m, rs) ->
  last_answer rs = Some (RspRestore s d k) -> s <> RS_OK -> d = [].
Proof. exact restore_data_only_ok. Qed.

(* C03 *)
Theorem C03_right_pin_costs_nothing :
  forall m v id guess d k m', reachable2 m ->
  apply2 m (In2 v (Log2 id (Restore guess))) = Ret (m', Some (RspRestore RS_OK d k)) ->
  m' = m /\ tries_seen m id = Some k.
Proof.
  intros m v id guess d k m' HR H. assert (W := reachable_wf _ HR).
  assert (m' = m) by (eapply right_pin_free; eauto). split; [assumption|].
  pose proof (acct_of_ext_apply2 _ _ _ _ W H) as [A _]. change (key2 _) with id in A.
  unfold acct_step in A; cbn [i_log i_vok l_req] in A.
  destruct (legal (Log2 id (Restore guess))) eqn:EL; [|discriminate].
  assert (Hid : length id = 16%nat) by (unfold legal in EL; cbn [l_id] in EL; lia).
  rewrite tries_seen_of by assumption. unfold tries_of.
  destruct (acct_of id m) as [|d0 p0 k0 [|]]; try discriminate.
  destruct v; [|discriminate]; cbn [negb] in A.
  destruct (beq guess p0); [|destruct (k0 =? 1); discriminate]. congruence.
Qed.
Theorem C03_wrong_pin_costs_one :
  forall m v id g m' t, reachable2 m ->
  apply2 m (In2 v (Log2 id (Restore g))) = Ret (m', Some (RspRestore RS_PIN_MISMATCH [] t)) ->
  tries_seen m id = Some (t + 1) /\ tries_seen m' id = Some t /\ 1 <= t.
Proof. exact wrong_guess_costs_one. Qed.
(* No input other than a Backup for the account raises its counter; only a
   mismatching Restore for it lowers it. *)
Theorem C03_tries_never_rise :
  forall m i m' r id, reachable2 m -> apply2 m i = Ret (m', r) ->
  length id = 16%nat -> is_backup id i = false ->
  match tries_seen m id, tries_seen m' id with
  | Some t, Some t' => t' = t \/
      (t' = t - 1 /\ 2 <= t /\ exists g, l_req (i_log i) = Restore g /\
                     r = Some (RspRestore RS_PIN_MISMATCH [] t'))
  | Some t, None => is_delete id i = true \/ (t = 1 /\ exists g, l_req (i_log i) = Restore g)
  | None, o => o = None
  end.
Proof. exact tries_step_seen. Qed.
Theorem C03_query_changes_nothing :
  forall m v id m' r, reachable2 m -> apply2 m (In2 v (Log2 id Tries)) = Ret (m', r) -> m' = m.
Proof. intros m v id m' r HR; apply tries_query_free, reachable_wf, HR. Qed.

(* C04 *)
Theorem C04_invisible_until_exposed :
  forall h0 h1 id data pin t vb guess v m rs,
  legal (Log2 id (Backup data pin t)) = true ->
  legal (Log2 id (Restore guess)) = true ->
  none_of (is_backup id) h1 -> none_of (good_expose id data) h1 ->
  exec2 [] (h0 ++ In2 vb (Log2 id (Backup data pin t)) :: h1 ++ [In2 v (Log2 id (Restore guess))])
    = Ret (m, rs) ->
  last_answer rs = Some (RspRestore RS_MISSING [] 0) /\
  (none_of (is_delete id) h1 -> tries_seen m id = Some t).
Proof.
  intros h0 h1 id data pin t vb guess v m rs L1 L2 H1 H2 HE.
  destruct (unexposed_missing _ _ _ _ _ _ _ _ _ _ _ L1 L2 H1 H2 HE) as [A B]. split; [exact A|].
  intros Hd. rewrite tries_seen_of.
  - unfold tries_of; now rewrite (B Hd).
  - apply reachable_wf. eexists _, _; exact HE.
  - unfold legal in L2; cbn [l_id] in L2; lia.
Qed.
Theorem C04_expose_needs_data :
  forall h id x v m rs,
  exec2 [] (h ++ [In2 v (Log2 id (Expose x))]) = Ret (m, rs) ->
  last_answer rs = Some (RspExpose true) ->
  exists h0 vb d p t h1, h = h0 ++ In2 vb (Log2 id (Backup d p t)) :: h1 /\
    none_of (is_backup id) h1 /\ none_of (is_delete id) h1 /\ is_prefix d x = true.
Proof. exact expose_ok_data. Qed.

(* C05 *)
Theorem C05_db2_isolation :
  forall id h m1 rs1 m2 rs2,
  exec2 [] h = Ret (m1, rs1) -> exec2 [] (filter (for_id id) h) = Ret (m2, rs2) ->
  rs2 = map snd (filter (fun p => for_id id (fst p)) (combine h rs1)).
Proof. intros id h m1 rs1 m2 rs2 H1 H2; exact (proj1 (isolation2 _ _ _ _ _ _ H1 H2)). Qed.

(* C06 *)
Theorem C06_db2_delete_final :
  forall h0 h1 id vd i m rs,
  length id = 16%nat -> none_of (is_backup id) h1 ->
  for_id id i = true -> is_backup id i = false ->
  exec2 [] (h0 ++ In2 vd (Log2 id Delete) :: h1 ++ [i]) = Ret (m, rs) ->
  last_answer rs = (if legal (i_log i) then
    match l_req (i_log i) with
    | Restore _ => Some (RspRestore RS_MISSING [] 0)
    | Expose _ => Some (RspExpose false)
    | Tries => Some (RspTries false 0 false)
    | Delete => Some RspDelete
    | _ => None end else None).
Proof.
  intros h0 h1 id vd i m rs A B C D E; exact (proj1 (deleted_stays _ _ _ _ _ _ _ A B C D E)).
Qed.

(* C12 *)
Theorem C12_db2_transfer_lossless :
  forall m sizes, reachable2 m ->
  Forall (fun n => (0 < n)%nat) sizes -> (length m <= total sizes)%nat ->
  transfer (rows_as_protos2 m) load_rows2 [] [] sizes = Ret (m, E_OK).
Proof. intros m sizes HR; apply transfer2_lossless, reachable_wf, HR. Qed.
Theorem C12_db2_load_rejects_bad_rows :
  forall m rows m' last, reachable2 m -> load_rows2 m rows = Ret (m', last, E_OK) ->
  exists ps, map parse_row2 rows = map Some ps /\ forallb row_msg_ok ps = true /\
    m' = m ++ map (fun p => (p_id p, row_of_msg p)) ps /\ sorted m'.
Proof. exact load_only_good. Qed.

(* C13 *)
Theorem C13_db2_same_contents_same_hash :
  forall sip16 sha256 m1 m2, reachable2 m1 -> reachable2 m2 ->
  (forall id, lookup id m1 = lookup id m2) ->
  hash2 sip16 sha256 m1 = hash2 sip16 sha256 m2 /\ hash2 sip16 sha256 m1 <> Crash.
Proof.
  intros sip16 sha256 m1 m2 R1 R2 E. apply reachable_wf in R1, R2.
  assert (m1 = m2) by (destruct R1, R2; now apply smap_ext). subst.
  split; [reflexivity|]. rewrite hash2_defined by assumption; discriminate.
Qed.
Theorem C13_db2_different_contents :
  forall sip16 sha256 m1 m2, (forall x, length (sip16 x) = 16%nat) ->
  reachable2 m1 -> reachable2 m2 ->
  hash2 sip16 sha256 m1 = hash2 sip16 sha256 m2 ->
  m1 = m2 \/ collision sip16 \/ collision sha256.
Proof.
  intros sip16 sha256 m1 m2 HL R1 R2; apply hash2_collision; auto using reachable_wf.
Qed.

(* C14 *)
Theorem C14_db2_no_crash :
  forall m v l, reachable2 m -> validate2 l = E_OK -> run2 m v l <> Crash.
Proof. exact no_crash2. Qed.
Theorem C14_db2_history_never_crashes : forall h, exists m rs, exec2 [] h = Ret (m, rs).
Proof. intros h; destruct (exec2_ok h [] wf_nil) as (m & rs & E & _); eauto. Qed.
Theorem C14_db2_validation_is_legality : forall l, validate2 l = E_OK <-> legal l = true.
Proof. intros l; rewrite validate2_legal; destruct (validate2 l); split; congruence. Qed.

(* ------------------------------------------------------------------ *)
(* Concrete cases *)
Definition ex_id : bytes := repeat 7 16.
Definition ex_id2 : bytes := repeat 8 16.
Definition ex_pin : bytes := repeat 1 32.
Definition ex_bad : bytes := repeat 2 32.
Definition ex_data : bytes := repeat 9 48.
Definition ex_backup t := In2 true (Log2 ex_id (Backup ex_data ex_pin t)).
Definition ex_expose := In2 true (Log2 ex_id (Expose ex_data)).
Definition ex_try p := In2 true (Log2 ex_id (Restore p)).
Definition ex_other := In2 true (Log2 ex_id2 (Backup ex_data ex_bad 200)).
Definition answers (h : list in2) : list (option resp2) :=
  match exec2 [] h with Ret (_, rs) => rs | Crash => [] end.

(* C15 is false of the code: a reachable row serializes to 107 bytes while
   MaxRowSerializedSize() is 105.  What holds is the bound 107. *)
Theorem C15_db2_refuted :
  exists m k r, reachable2 m /\ lookup k m = Some r /\
    (max_row_size2 < length (ser_row2 (row_proto2 k r)))%nat.
Proof.
  exists (match exec2 [] [ex_backup 255] with Ret (m, _) => m | Crash => [] end), ex_id,
         (Row2 POPULATED 255 48 ex_data ex_pin).
  split; [exists [ex_backup 255], [Some RspBackup]; vm_compute; reflexivity|].
  split; [vm_compute; reflexivity|]. vm_compute. lia.
Qed.
Theorem C15_db2_row_size_bound :
  forall m k r, reachable2 m -> lookup k m = Some r ->
  (length (ser_row2 (row_proto2 k r)) <= 107)%nat.
Proof.
  intros m k r HR HL. destruct (reachable_wf _ HR) as [_ W]. destruct (W _ _ HL) as [Wr Hk].
  rewrite row_size by assumption. destruct Wr as (_ & _ & Hd & _).
  destruct (r_tries r <? 128); lia.
Qed.

Example ex_guesses :
  answers [ex_other; ex_backup 3; ex_try ex_pin; ex_expose; ex_try ex_bad; ex_try ex_pin;
           ex_try ex_bad; ex_try ex_bad; ex_try ex_pin] =
  [Some RspBackup; Some RspBackup; Some (RspRestore RS_MISSING [] 0); Some (RspExpose true);
   Some (RspRestore RS_PIN_MISMATCH [] 2); Some (RspRestore RS_OK ex_data 2);
   Some (RspRestore RS_PIN_MISMATCH [] 1); Some (RspRestore RS_MISSING [] 0);
   Some (RspRestore RS_MISSING [] 0)].
Proof. vm_compute; reflexivity. Qed.
Example ex_C01_hypotheses :
  legal (Log2 ex_id (Backup ex_data ex_pin 3)) = true /\
  legal (Log2 ex_id (Expose ex_data)) = true /\ is_prefix ex_data ex_data = true /\
  legal (Log2 ex_id (Restore ex_bad)) = true /\ ex_bad <> ex_pin /\
  count (wrong_guess ex_id ex_pin) [ex_try ex_bad; ex_other; ex_try ex_pin] = 1.
Proof. repeat split; try (vm_compute; reflexivity). discriminate. Qed.
Example ex_transfer :
  match exec2 [] [ex_other; ex_backup 3; ex_expose; ex_try ex_bad] with
  | Ret (m, _) => length m = 2%nat /\
      transfer (rows_as_protos2 m) load_rows2 [] [] [1%nat; 1%nat; 1%nat] = Ret (m, E_OK)
  | Crash => False
  end.
Proof. vm_compute; auto. Qed.
Example ex_load_rejects_duplicate :
  match exec2 [] [ex_other; ex_backup 3] with
  | Ret (m, _) => match load_rows2 m (snd (rows_as_protos2 m [] 2)) with
                  | Ret (_, _, e) => e = E_OutOfOrder | Crash => False end
  | Crash => False
  end.
Proof. vm_compute; auto. Qed.

Print Assumptions C01_guess_limit.
Print Assumptions C02_ok_means_right_pin.
Print Assumptions C03_tries_never_rise.
Print Assumptions C04_invisible_until_exposed.
Print Assumptions C05_db2_isolation.
Print Assumptions C06_db2_delete_final.
Print Assumptions C12_db2_transfer_lossless.
Print Assumptions C13_db2_different_contents.
Print Assumptions C14_db2_no_crash.
Print Assumptions C15_db2_refuted.
