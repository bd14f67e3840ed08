(* Properties of the SVR3 store (DB3).  Vocabulary: DB3Spec.v.  Everything is
   proved for an arbitrary scalar multiplication [smul] (None = it fails). *)
From Verif Require Import DB3 DB3Spec DB3Proofs DBHashProofs.

(* C07 / C08.  After a Create with max_tries t and key priv, an Evaluate is
   answered with the product by priv as long as fewer than t evaluations were
   answered before, reporting what is left; the next ones are answered MISSING;
   an element that cannot be multiplied is answered ERROR (and does not count in
   n, so costs nothing). *)
Theorem C07_evaluation_limit :
  forall smul h0 h1 id t e0 priv ev0 vc v e p m rs,
  legal3 (Log3 id (Create3 t e0) priv) = true -> smul priv e0 = Some ev0 ->
  none_of (is_create3 smul id) h1 -> none_of (is_remove3 id) h1 ->
  legal3 (Log3 id (Evaluate3 e) p) = true ->
  exec3 smul [] (h0 ++ In3 vc (Log3 id (Create3 t e0) priv) :: h1
                 ++ [In3 v (Log3 id (Evaluate3 e) p)]) = Ret (m, rs) ->
  let n := count (is_eval3 smul id priv) h1 in
  last_answer rs = Some
    (if n <? t then
       match (if v then smul priv e else None) with
       | Some ev => RspEvaluate3 S3_OK ev (t - n - 1)
       | None => RspEvaluate3 S3_ERROR [] 0
       end
     else RspEvaluate3 S3_MISSING [] 0).
Proof. exact eval_answer3. Qed.
Theorem C07_query_truthful :
  forall smul h0 h1 id t e0 priv ev0 vc v p m rs,
  legal3 (Log3 id (Create3 t e0) priv) = true -> smul priv e0 = Some ev0 ->
  none_of (is_create3 smul id) h1 -> none_of (is_remove3 id) h1 ->
  exec3 smul [] (h0 ++ In3 vc (Log3 id (Create3 t e0) priv) :: h1
                 ++ [In3 v (Log3 id Query3 p)]) = Ret (m, rs) ->
  let n := count (is_eval3 smul id priv) h1 in
  last_answer rs = Some (if n <? t then RspQuery3 S3_OK (t - n) else RspQuery3 S3_MISSING 0).
Proof. exact query_answer3. Qed.

(* C08.  Every OK evaluation is by the key of the account's last Create. *)
Theorem C08_key_of_last_create :
  forall smul h id e p v m rs ev k,
  exec3 smul [] (h ++ [In3 v (Log3 id (Evaluate3 e) p)]) = Ret (m, rs) ->
  last_answer rs = Some (RspEvaluate3 S3_OK ev k) ->
  exists h0 vc t e0 ev0 priv h1,
    h = h0 ++ In3 vc (Log3 id (Create3 t e0) priv) :: h1 /\
    legal3 (Log3 id (Create3 t e0) priv) = true /\ smul priv e0 = Some ev0 /\
    none_of (is_create3 smul id) h1 /\ none_of (is_remove3 id) h1 /\
    smul priv e = Some ev /\
    count (is_eval3 smul id priv) h1 < t /\ k = t - count (is_eval3 smul id priv) h1 - 1.
Proof. exact eval_ok_history3. Qed.
(* The key of a Create is the one the enclave drew, whatever the client sent. *)
Theorem C08_key_chosen_by_enclave :
  forall newkey auth t e l, log_from_request3 newkey auth (Create3 t e) = inl l ->
  l3_priv l = newkey /\ l3_id l = auth /\ l3_req l = Create3 t e.
Proof.
  intros newkey auth t e l H. unfold log_from_request3 in H.
  destruct (negb _); [discriminate|]. injection H as <-; auto.
Qed.

Theorem C05_db3_isolation :
  forall smul id h m1 rs1 m2 rs2,
  exec3 smul [] h = Ret (m1, rs1) -> exec3 smul [] (filter (for_id3 id) h) = Ret (m2, rs2) ->
  rs2 = map snd (filter (fun p => for_id3 id (fst p)) (combine h rs1)).
Proof. intros smul id h m1 rs1 m2 rs2 H1 H2; exact (proj1 (isolation3 _ _ _ _ _ _ _ H1 H2)). Qed.

Theorem C06_db3_remove_final :
  forall smul h0 h1 id vd p i m rs,
  length id = 16%nat -> none_of (is_create3 smul id) h1 ->
  for_id3 id i = true -> is_create3 smul id i = false ->
  exec3 smul [] (h0 ++ In3 vd (Log3 id Remove3 p) :: h1 ++ [i]) = Ret (m, rs) ->
  last_answer rs = (if legal3 (i3_log i) then
    match l3_req (i3_log i) with
    | Evaluate3 _ => Some (RspEvaluate3 S3_MISSING [] 0)
    | Query3 => Some (RspQuery3 S3_MISSING 0)
    | Remove3 => Some RspRemove3
    | Create3 _ _ => Some (RspCreate3 S3_ERROR [])
    | Unset3 => None end else None).
Proof.
  intros smul h0 h1 id vd p i m rs A B C D E; exact (proj1 (removed_stays3 _ _ _ _ _ _ _ _ _ A B C D E)).
Qed.

Theorem C12_db3_transfer_lossless :
  forall smul m sizes, reachable3 smul m ->
  Forall (fun n => (0 < n)%nat) sizes -> (length m <= total sizes)%nat ->
  transfer (rows_as_protos3 m) load_rows3 [] [] sizes = Ret (m, E_OK).
Proof. intros smul m sizes HR; eapply transfer3_lossless, reachable_wf3, HR. Qed.
Theorem C12_db3_load_rejects_bad_rows :
  forall smul m rows m' last, reachable3 smul m -> load_rows3 m rows = Ret (m', last, E_OK) ->
  exists ps, map parse_row3 rows = map Some ps /\ forallb row_msg_ok3 ps = true /\
    m' = m ++ map (fun p => (p3_id p, Row3 (p3_priv p) (p3_tries p))) ps /\ sorted m'.
Proof. intros smul m rows m' last HR; eapply load_only_good3, reachable_wf3, HR. Qed.

Theorem C13_db3_same_contents_same_hash :
  forall smul sip16 sha256 m1 m2, reachable3 smul m1 -> reachable3 smul m2 ->
  (forall id, lookup id m1 = lookup id m2) -> hash3 sip16 sha256 m1 = hash3 sip16 sha256 m2.
Proof.
  intros smul sip16 sha256 m1 m2 R1 R2 E. apply reachable_wf3 in R1, R2.
  assert (m1 = m2) by (destruct R1, R2; now apply smap_ext). now subst.
Qed.
Theorem C13_db3_different_contents :
  forall smul sip16 sha256 m1 m2, (forall x, length (sip16 x) = 16%nat) ->
  reachable3 smul m1 -> reachable3 smul m2 ->
  hash3 sip16 sha256 m1 = hash3 sip16 sha256 m2 ->
  m1 = m2 \/ collision sip16 \/ collision sha256.
Proof.
  intros smul sip16 sha256 m1 m2 HL R1 R2; apply hash3_collision; eauto using reachable_wf3.
Qed.

Theorem C14_db3_no_crash :
  forall smul m v l, reachable3 smul m -> validate3 l = E_OK -> run3 smul m v l <> Crash.
Proof. exact no_crash3. Qed.
Theorem C14_db3_history_never_crashes : forall smul h, exists m rs, exec3 smul [] h = Ret (m, rs).
Proof. intros smul h; destruct (exec3_ok smul h [] wf_nil3) as (m & rs & E & _); eauto. Qed.
Theorem C14_db3_validation_is_legality : forall l, validate3 l = E_OK <-> legal3 l = true.
Proof. intros l; rewrite validate3_legal; destruct (validate3 l); split; congruence. Qed.

(* ------------------------------------------------------------------ *)
(* Concrete cases: a toy multiplication that fails on the zero element *)
Definition toy_smul (k e : bytes) : option bytes :=
  if beq e (zeros 32) then None else Some (map (fun p => (fst p + snd p) mod 256) (combine k e)).
Definition ex3_id : bytes := repeat 7 16.
Definition ex3_key : bytes := repeat 5 32.
Definition ex3_el (x : N) : bytes := repeat x 32.
Definition ex3_create t := In3 true (Log3 ex3_id (Create3 t (ex3_el 1)) ex3_key).
Definition ex3_other := In3 true (Log3 (repeat 8 16) (Create3 200 (ex3_el 2)) (ex3_el 3)).
Definition ex3_eval x := In3 true (Log3 ex3_id (Evaluate3 (ex3_el x)) []).
Definition answers3 (h : list in3) : list (option resp3) :=
  match exec3 toy_smul [] h with Ret (_, rs) => rs | Crash => [] end.

Theorem C15_db3_refuted :
  exists smul m k r, reachable3 smul m /\ lookup k m = Some r /\
    (max_row_size3 < length (ser_row3 (row_proto3 k r)))%nat.
Proof.
  exists toy_smul, (match exec3 toy_smul [] [ex3_create 255] with Ret (m, _) => m | Crash => [] end), ex3_id,
         (Row3 ex3_key 255).
  split; [exists [ex3_create 255], (answers3 [ex3_create 255]); vm_compute; reflexivity|].
  split; [vm_compute; reflexivity|]. vm_compute. lia.
Qed.
Theorem C15_db3_row_size_bound :
  forall smul m k r, reachable3 smul m -> lookup k m = Some r ->
  (length (ser_row3 (row_proto3 k r)) <= 55)%nat.
Proof.
  intros smul m k r HR HL. destruct (reachable_wf3 _ _ HR) as [_ W]. destruct (W _ _ HL) as [Wr Hk].
  rewrite row_size3 by assumption. destruct (r3_tries r <? 128); lia.
Qed.

Example ex3_evals :
  answers3 [ex3_other; ex3_create 2; ex3_eval 0; ex3_eval 1; ex3_eval 2; ex3_eval 3] =
  [Some (RspCreate3 S3_OK (ex3_el 5)); Some (RspCreate3 S3_OK (ex3_el 6));
   Some (RspEvaluate3 S3_ERROR [] 0); Some (RspEvaluate3 S3_OK (ex3_el 6) 1);
   Some (RspEvaluate3 S3_OK (ex3_el 7) 0); Some (RspEvaluate3 S3_MISSING [] 0)].
Proof. vm_compute; reflexivity. Qed.
Example ex3_hypotheses :
  legal3 (Log3 ex3_id (Create3 2 (ex3_el 1)) ex3_key) = true /\
  toy_smul ex3_key (ex3_el 1) = Some (ex3_el 6) /\
  legal3 (Log3 ex3_id (Evaluate3 (ex3_el 2)) []) = true /\
  count (is_eval3 toy_smul ex3_id ex3_key) [ex3_eval 0; ex3_eval 1; ex3_other] = 1.
Proof. repeat split; vm_compute; reflexivity. Qed.
Example ex3_transfer :
  match exec3 toy_smul [] [ex3_other; ex3_create 3; ex3_eval 1] with
  | Ret (m, _) => length m = 2%nat /\
      transfer (rows_as_protos3 m) load_rows3 [] [] [1%nat; 5%nat] = Ret (m, E_OK)
  | Crash => False
  end.
Proof. vm_compute; auto. Qed.

Print Assumptions C07_evaluation_limit.
Print Assumptions C08_key_of_last_create.
Print Assumptions C05_db3_isolation.
Print Assumptions C06_db3_remove_final.
Print Assumptions C12_db3_transfer_lossless.
Print Assumptions C13_db3_different_contents.
Print Assumptions C14_db3_no_crash.
Print Assumptions C15_db3_refuted.
