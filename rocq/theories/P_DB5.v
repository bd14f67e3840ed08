(* Properties of the DB5 store.  Vocabulary: DB5Spec.v.  Everything is proved
   for an arbitrary HMAC function. *)
From Verif Require Import DB5 DB5Spec DB5Proofs DBHashProofs.

(* C54.  A Download answers the HMAC of the password under the data of the
   account's last Upload, and an OK answer is nothing else. *)
Theorem C54_download_uses_last_upload :
  forall hmac h0 h1 id d vu v p m rs,
  legal5 (Log5 id (Upload5 d)) = true -> legal5 (Log5 id (Download5 p)) = true ->
  none_of (is_upload5 id) h1 -> none_of (is_purge5 id) h1 ->
  exec5 hmac [] (h0 ++ In5 vu (Log5 id (Upload5 d)) :: h1 ++ [In5 v (Log5 id (Download5 p))]) = Ret (m, rs) ->
  last_answer rs = Some (if v then RspDownload5 S5_OK (hmac d p) else RspDownload5 S5_MERKLE_FAILURE []).
Proof. exact download_answer5. Qed.
Theorem C54_ok_means_last_upload :
  forall hmac h id p v m rs out,
  exec5 hmac [] (h ++ [In5 v (Log5 id (Download5 p))]) = Ret (m, rs) ->
  last_answer rs = Some (RspDownload5 S5_OK out) ->
  exists h0 vu d h1, h = h0 ++ In5 vu (Log5 id (Upload5 d)) :: h1 /\
    legal5 (Log5 id (Upload5 d)) = true /\
    none_of (is_upload5 id) h1 /\ none_of (is_purge5 id) h1 /\ out = hmac d p.
Proof. exact download_ok_history5. Qed.

Theorem C05_db5_isolation :
  forall hmac id h m1 rs1 m2 rs2,
  exec5 hmac [] h = Ret (m1, rs1) -> exec5 hmac [] (filter (for_id5 id) h) = Ret (m2, rs2) ->
  rs2 = map snd (filter (fun p => for_id5 id (fst p)) (combine h rs1)).
Proof. intros hmac id h m1 rs1 m2 rs2 H1 H2; exact (proj1 (isolation5 _ _ _ _ _ _ _ H1 H2)). Qed.

Theorem C06_db5_purge_final :
  forall hmac h0 h1 id vd i m rs,
  length id = 16%nat -> none_of (is_upload5 id) h1 ->
  for_id5 id i = true -> is_upload5 id i = false ->
  exec5 hmac [] (h0 ++ In5 vd (Log5 id Purge5) :: h1 ++ [i]) = Ret (m, rs) ->
  last_answer rs = (if legal5 (i5_log i) then
    match l5_req (i5_log i) with
    | Download5 _ => Some (RspDownload5 S5_MISSING [])
    | Purge5 => Some RspPurge5
    | Upload5 _ | Unset5 => None end else None).
Proof.
  intros hmac h0 h1 id vd i m rs A B C D E; exact (proj1 (purged_stays5 _ _ _ _ _ _ _ _ A B C D E)).
Qed.

Theorem C12_db5_transfer_lossless :
  forall hmac m sizes, reachable5 hmac m ->
  Forall (fun n => (0 < n)%nat) sizes -> (length m <= total sizes)%nat ->
  transfer (rows_as_protos5 m) load_rows5 [] [] sizes = Ret (m, E_OK).
Proof. intros hmac m sizes HR; eapply transfer5_lossless, reachable_wf5, HR. Qed.
Theorem C12_db5_load_rejects_bad_rows :
  forall hmac m rows m' last, reachable5 hmac m -> load_rows5 m rows = Ret (m', last, E_OK) ->
  exists ps, map parse_row5 rows = map Some ps /\ forallb row_msg_ok5 ps = true /\
    m' = m ++ map (fun p => (p5_id p, p5_data p)) ps /\ sorted m'.
Proof. intros hmac m rows m' last HR; eapply load_only_good5, reachable_wf5, HR. Qed.

Theorem C13_db5_same_contents_same_hash :
  forall hmac sip16 sha256 m1 m2, reachable5 hmac m1 -> reachable5 hmac m2 ->
  (forall id, lookup id m1 = lookup id m2) -> hash5 sip16 sha256 m1 = hash5 sip16 sha256 m2.
Proof.
  intros hmac sip16 sha256 m1 m2 R1 R2 E. apply reachable_wf5 in R1, R2.
  assert (m1 = m2) by (destruct R1, R2; now apply smap_ext). now subst.
Qed.
Theorem C13_db5_different_contents :
  forall hmac sip16 sha256 m1 m2, (forall x, length (sip16 x) = 16%nat) ->
  reachable5 hmac m1 -> reachable5 hmac m2 ->
  hash5 sip16 sha256 m1 = hash5 sip16 sha256 m2 ->
  m1 = m2 \/ collision sip16 \/ collision sha256.
Proof.
  intros hmac sip16 sha256 m1 m2 HL R1 R2; apply hash5_collision; eauto using reachable_wf5.
Qed.

Theorem C14_db5_no_crash :
  forall hmac m v l, reachable5 hmac m -> validate5 l = E_OK -> run5 hmac m v l <> Crash.
Proof. exact no_crash5. Qed.
Theorem C14_db5_history_never_crashes : forall hmac h, exists m rs, exec5 hmac [] h = Ret (m, rs).
Proof. intros hmac h; destruct (exec5_ok hmac h [] wf_nil5) as (m & rs & E & _); eauto. Qed.
Theorem C14_db5_validation_is_legality : forall l, validate5 l = E_OK <-> legal5 l = true.
Proof. intros l; rewrite validate5_legal; destruct (validate5 l); split; congruence. Qed.

(* DB5 is the one store whose published bound is right, and exact. *)
Theorem C15_db5_row_size_bound :
  forall hmac m k d, reachable5 hmac m -> lookup k m = Some d ->
  (length (ser_row5 (PRow5 k d)) <= max_row_size5)%nat.
Proof.
  intros hmac m k d HR HL. destruct (reachable_wf5 _ _ HR) as [_ W]. destruct (W _ _ HL).
  rewrite row_size5 by assumption. reflexivity.
Qed.

(* ------------------------------------------------------------------ *)
(* Concrete cases: a toy HMAC *)
Definition toy_hmac (k p : bytes) : bytes := map (fun x => (fst x + snd x) mod 256) (combine k p).
Definition ex5_id : bytes := repeat 7 16.
Definition ex5_up x := In5 true (Log5 ex5_id (Upload5 (repeat x 32))).
Definition ex5_down x := In5 true (Log5 ex5_id (Download5 (repeat x 32))).
Definition ex5_purge := In5 true (Log5 ex5_id Purge5).
Definition ex5_other := In5 true (Log5 (repeat 8 16) (Upload5 (repeat 9 32))).
Definition answers5 (h : list in5) : list (option resp5) :=
  match exec5 toy_hmac [] h with Ret (_, rs) => rs | Crash => [] end.
Example ex5_run :
  answers5 [ex5_down 1; ex5_up 3; ex5_other; ex5_up 4; ex5_down 2; ex5_purge; ex5_down 2] =
  [Some (RspDownload5 S5_MISSING []); Some (RspUpload5 S5_OK); Some (RspUpload5 S5_OK);
   Some (RspUpload5 S5_OK); Some (RspDownload5 S5_OK (repeat 6 32)); Some RspPurge5;
   Some (RspDownload5 S5_MISSING [])].
Proof. vm_compute; reflexivity. Qed.
Example ex5_hypotheses :
  legal5 (i5_log (ex5_up 3)) = true /\ legal5 (i5_log (ex5_down 3)) = true /\
  is_upload5 ex5_id ex5_other = false /\ is_purge5 ex5_id (ex5_down 1) = false.
Proof. repeat split; vm_compute; reflexivity. Qed.
Example ex5_transfer :
  match exec5 toy_hmac [] [ex5_other; ex5_up 3] with
  | Ret (m, _) => length m = 2%nat /\
      transfer (rows_as_protos5 m) load_rows5 [] [] [1%nat; 5%nat] = Ret (m, E_OK)
  | Crash => False
  end.
Proof. vm_compute; auto. Qed.

Print Assumptions C54_download_uses_last_upload.
Print Assumptions C54_ok_means_last_upload.
Print Assumptions C05_db5_isolation.
Print Assumptions C06_db5_purge_final.
Print Assumptions C12_db5_transfer_lossless.
Print Assumptions C13_db5_different_contents.
Print Assumptions C14_db5_no_crash.
Print Assumptions C15_db5_row_size_bound.
