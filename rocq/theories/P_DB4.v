(* Properties of the SVR4 store.  Vocabulary: DB4Spec.v.  Everything is proved
   for arbitrary ristretto and SHA-512 functions; [add_closed] (scalar addition
   gives a scalar) is needed only for state transfer and hashing. *)
From Verif Require Import DB4 DB4Spec DB4Proofs DB4Transfer DBHashProofs.

(* C09.  After a Create that sets t tries, n Restore1 on an intact record leave
   t-n tries, reported by Query; the n+1st is answered with t-n-1 and refused
   once there are none.  (ERROR only if a point operation fails.) *)
Theorem C09_restore_limit :
  forall c h0 h1 id t o au e z v vc bl m rs, t <> 0 ->
  legal4 c (Log4 id (Create4 t o au e z v)) = true -> is_point c bl = true ->
  none_of (is_reset4 c id) h1 -> none_of (is_remove4 c id) h1 ->
  exec4 c empty4 (h0 ++ In4 vc (Log4 id (Create4 t o au e z v)) :: h1
                  ++ [In4 true (Log4 id (Restore1_4 bl))]) = Ret (m, rs) ->
  let n := count (is_restore4 c id) h1 in
  if n <? t then
    exists s auth st, last_answer rs = Some (RspRestore1_4 s auth (t - n - 1), st) /\ (s = S4_OK \/ s = S4_ERROR)
  else last_answer rs = Some (RspRestore1_4 S4_MISSING [] 0, None).
Proof. exact restore_answer4. Qed.
Theorem C09_query_truthful :
  forall c h0 h1 id t o au e z v vc vq m rs, t <> 0 ->
  legal4 c (Log4 id (Create4 t o au e z v)) = true ->
  none_of (is_reset4 c id) h1 -> none_of (is_remove4 c id) h1 ->
  exec4 c empty4 (h0 ++ In4 vc (Log4 id (Create4 t o au e z v)) :: h1 ++ [In4 vq (Log4 id Query4)]) = Ret (m, rs) ->
  let n := count (is_restore4 c id) h1 in
  exists ver newver, last_answer rs = Some
    (if n <? t then RspQuery4 S4_OK (t - n) ver newver else RspQuery4 S4_MISSING 0 0 0, None).
Proof. exact query_answer4. Qed.

(* C10.  A rotation started on an account, with anything happening in between
   except a Create, a Remove or the end of that rotation, and n Restore1 that do
   not use up the tries: Commit replaces both shares by share+delta and the
   version, Rollback leaves the account as it was. *)
Theorem C10_commit :
  forall c m id r v od ed h1 m' rs, reachable4 c m -> account4 id m = Some (r, None) ->
  legal4 c (Log4 id (RotateStart4 v od ed)) = true -> v <> r4_version r ->
  none_of (is_create4 c id) h1 -> none_of (is_remove4 c id) h1 -> none_of (is_finish4 c id v) h1 ->
  let n := count (is_restore4 c id) h1 in n < r4_tries r ->
  exec4 c m (In4 true (Log4 id (RotateStart4 v od ed)) :: h1
             ++ [In4 true (Log4 id (RotateCommit4 v))]) = Ret (m', rs) ->
  account4 id m' =
    Some (Row4 (r4_auth r) (sc_add c od (r4_oprf r)) (xor32 (r4_enc r) ed) (r4_zero r) v (r4_tries r - n), None) /\
  last_answer rs = Some (RspRotateCommit4 S4_OK, None).
Proof.
  intros c m id r v od ed h1 m' rs HR. intros. apply reachable_wf4 in HR.
  apply (rotation_ends4 c m id r v od ed h1 true m' rs); auto.
Qed.
Theorem C10_rollback :
  forall c m id r v od ed h1 m' rs, reachable4 c m -> account4 id m = Some (r, None) ->
  legal4 c (Log4 id (RotateStart4 v od ed)) = true -> v <> r4_version r ->
  none_of (is_create4 c id) h1 -> none_of (is_remove4 c id) h1 -> none_of (is_finish4 c id v) h1 ->
  let n := count (is_restore4 c id) h1 in n < r4_tries r ->
  exec4 c m (In4 true (Log4 id (RotateStart4 v od ed)) :: h1
             ++ [In4 true (Log4 id (RotateRollback4 v))]) = Ret (m', rs) ->
  account4 id m' =
    Some (Row4 (r4_auth r) (r4_oprf r) (r4_enc r) (r4_zero r) (r4_version r) (r4_tries r - n), None) /\
  last_answer rs = Some (RspRotateRollback4 S4_OK, None).
Proof.
  intros c m id r v od ed h1 m' rs HR. intros. apply reachable_wf4 in HR.
  apply (rotation_ends4 c m id r v od ed h1 false m' rs); auto.
Qed.
(* While a rotation is pending a second RotateStart, and a Commit or Rollback of
   another version, are refused and change nothing. *)
Theorem C10_other_versions_have_no_effect :
  forall c m id r rr vk q m' rs, reachable4 c m -> account4 id m = Some (r, Some rr) ->
  legal4 c (Log4 id q) = true ->
  exec4 c m [In4 vk (Log4 id q)] = Ret (m', rs) ->
  match q with
  | RotateStart4 _ _ _ => account4 id m' = account4 id m /\ rs = [Some (RspRotateStart4 S4_ALREADY_ROTATING, None)]
  | RotateCommit4 w => w <> rr_version rr ->
      account4 id m' = account4 id m /\ rs = [Some (RspRotateCommit4 S4_VERSION_MISMATCH, None)]
  | RotateRollback4 w => w <> rr_version rr ->
      account4 id m' = account4 id m /\ rs = [Some (RspRotateRollback4 S4_VERSION_MISMATCH, None)]
  | _ => True
  end.
Proof. exact pending_refuses4. Qed.
(* A rotation to the version the account already has is refused, and a Create
   cancels a pending rotation. *)
Theorem C10_same_version_refused :
  forall c m id r vk od ed m' rs, reachable4 c m -> account4 id m = Some (r, None) ->
  legal4 c (Log4 id (RotateStart4 (r4_version r) od ed)) = true ->
  exec4 c m [In4 vk (Log4 id (RotateStart4 (r4_version r) od ed))] = Ret (m', rs) ->
  account4 id m' = account4 id m /\ rs = [Some (RspRotateStart4 S4_DUPLICATE_VERSION, None)].
Proof. intros c m id r vk od ed m' rs HR; apply same_version4; now apply (reachable_wf4 c). Qed.
Theorem C10_create_cancels_rotation :
  forall c m id t o au e z v vc vq m' rs, reachable4 c m -> t <> 0 ->
  legal4 c (Log4 id (Create4 t o au e z v)) = true ->
  exec4 c m [In4 vc (Log4 id (Create4 t o au e z v)); In4 vq (Log4 id Query4)] = Ret (m', rs) ->
  last_answer rs = Some (RspQuery4 S4_OK t v 0, None).
Proof. intros c m id t o au e z v vc vq m' rs HR; apply create_clean4; now apply (reachable_wf4 c). Qed.
(* While a rotation is pending Restore1 evaluates under both keys, and what it
   reports second is what it alone reports once the rotation is committed, what
   it reports first what it alone reports once it is rolled back. *)
Theorem C10_restore_sees_both :
  forall c m id r rr b e1 e2, reachable4 c m -> account4 id m = Some (r, Some rr) -> is_point c b = true ->
  length id = 16%nat -> 1 <= rr_version rr ->
  oprf c id b (r4_oprf r) (r4_zero r) = Some e1 ->
  oprf c id b (sc_add c (rr_oprf rr) (r4_oprf r)) (r4_zero r) = Some e2 ->
  let restore := In4 true (Log4 id (Restore1_4 b)) in
  let commit := In4 true (Log4 id (RotateCommit4 (rr_version rr))) in
  let rollback := In4 true (Log4 id (RotateRollback4 (rr_version rr))) in
  let t := r4_tries r - 1 in
  (forall m' rs, exec4 c m [restore] = Ret (m', rs) ->
     exists st, last_answer rs = Some (RspRestore1_4 S4_OK [(e1, r4_version r); (e2, rr_version rr)] t, st)) /\
  (forall m' rs, exec4 c m [commit; restore] = Ret (m', rs) ->
     exists st, last_answer rs = Some (RspRestore1_4 S4_OK [(e2, rr_version rr)] t, st)) /\
  (forall m' rs, exec4 c m [rollback; restore] = Ret (m', rs) ->
     exists st, last_answer rs = Some (RspRestore1_4 S4_OK [(e1, r4_version r)] t, st)).
Proof. exact restore_both4. Qed.

(* C11.  On one connection, an OK Restore2 means that the last thing that
   happened before it, apart from other database effects, is an OK Restore1; no
   request came in between; the proof verifies against the commitment in that
   Restore1's state; and the share is that state's share of the version asked. *)
Theorem C11_restore2_gated :
  forall c hh aid es ap az v share,
  last (snd (sess_run4 c hh aid None (es ++ [SReq4 (Restore2_4 ap az v)]))) SA_Continue =
    SA_Resp (RspRestore2_4 S4_OK share) ->
  exists es0 auths t o es1,
    es = es0 ++ SEff4 (RspRestore1_4 S4_OK auths t, o) :: es1 /\
    none_of is_request es1 /\ none_of is_restore1_ok es1 /\
    let st := match o with Some x => x | None => R2State [] [] [] 0 0 [] end in
    proof_ok c hh (r2_auth st) (r2_blinded st) ap az /\
    (v = r2_version st /\ share = r2_enc st \/
     v <> r2_version st /\ v = r2_new_version st /\ share = r2_new_enc st).
Proof. exact restore2_gated. Qed.
(* ... and that commitment is the one of the account's last Create. *)
Theorem C11_commitment_of_last_create :
  forall c h id b v m rs auths t st,
  exec4 c empty4 (h ++ [In4 v (Log4 id (Restore1_4 b))]) = Ret (m, rs) ->
  last_answer rs = Some (RspRestore1_4 S4_OK auths t, st) ->
  exists s h0 vc t0 op e z ver h1, st = Some s /\ r2_blinded s = b /\
    h = h0 ++ In4 vc (Log4 id (Create4 t0 op (r2_auth s) e z ver)) :: h1 /\
    legal4 c (Log4 id (Create4 t0 op (r2_auth s) e z ver)) = true /\
    none_of (is_create4 c id) h1 /\ none_of (is_remove4 c id) h1.
Proof. exact restore1_commitment4. Qed.
(* any request clears the state, so a second Restore2 needs a second Restore1 *)
Theorem C11_state_used_once :
  forall c hh aid s r, fst (sess_step4 c hh aid s (SReq4 r)) = None.
Proof. intros c hh aid s r; destruct r; reflexivity. Qed.

Theorem C05_db4_isolation :
  forall c id h m1 rs1 m2 rs2,
  exec4 c empty4 h = Ret (m1, rs1) -> exec4 c empty4 (filter (for_id4 id) h) = Ret (m2, rs2) ->
  rs2 = map snd (filter (fun p => for_id4 id (fst p)) (combine h rs1)).
Proof. intros c id h m1 rs1 m2 rs2 H1 H2; exact (proj1 (isolation4 _ _ _ _ _ _ _ H1 H2)). Qed.

Theorem C06_db4_remove_final :
  forall c h0 h1 id vd i m rs,
  length id = 16%nat -> none_of (is_reset4 c id) h1 ->
  for_id4 id i = true -> is_reset4 c id i = false ->
  exec4 c empty4 (h0 ++ In4 vd (Log4 id Remove4) :: h1 ++ [i]) = Ret (m, rs) ->
  last_answer rs = (if legal4 c (i4_log i) then
    match l4_req (i4_log i) with
    | Create4 _ _ _ _ _ _ => Some (RspCreate4 S4_INVALID 0, None)
    | Restore1_4 _ => Some (RspRestore1_4 S4_MISSING [] 0, None)
    | Remove4 => Some (RspRemove4, None)
    | Query4 => Some (RspQuery4 S4_MISSING 0 0 0, None)
    | RotateStart4 _ _ _ => Some (RspRotateStart4 S4_MISSING, None)
    | RotateCommit4 _ => Some (RspRotateCommit4 S4_MISSING, None)
    | RotateRollback4 _ => Some (RspRotateRollback4 S4_MISSING, None)
    | Restore2_4 _ _ _ | Unset4 => None end else None).
Proof.
  intros c h0 h1 id vd i m rs A B C D E; exact (proj1 (removed_stays4 _ _ _ _ _ _ _ _ A B C D E)).
Qed.

Theorem C12_db4_transfer_lossless :
  forall c m sizes, add_closed c -> reachable4 c m ->
  Forall (fun n => (0 < n)%nat) sizes -> (length (rows4 m) <= total sizes)%nat ->
  transfer (rows_as_protos4 m) (load_rows4 c) empty4 [] sizes = Ret (m, E_OK).
Proof. intros c m sizes HA HR; apply transfer4_lossless, reachable_good; assumption. Qed.
Theorem C12_db4_load_rejects_bad_rows :
  forall c m rows m' last, reachable4 c m -> load_rows4 c m rows = Ret (m', last, E_OK) ->
  exists ps, map parse_row4 rows = map Some ps /\ forallb (row_msg_ok4 c) ps = true /\
    rows4 m' = rows4 m ++ map (fun p => (p4_id p, msg_row4 p)) ps /\
    rots4 m' = rots4 m ++ flat_map (fun p => match msg_rot4 p with Some rr => [(p4_id p, rr)] | None => [] end) ps /\
    sorted (rows4 m') /\ sorted (rots4 m').
Proof. intros c m rows m' last HR; eapply load_only_good4, reachable_wf4, HR. Qed.

(* same accounts, same hash (and hashing never trips its CHECK) *)
Theorem C13_db4_same_contents_same_hash :
  forall c sip16 sha256 m1 m2, reachable4 c m1 -> reachable4 c m2 ->
  (forall id, account4 id m1 = account4 id m2) ->
  exists d, hash4 sip16 sha256 m1 = Ret d /\ hash4 sip16 sha256 m2 = Ret d.
Proof. intros c sip16 sha256 m1 m2 R1 R2; apply hash4_det; eauto using reachable_wf4. Qed.
Theorem C13_db4_different_contents :
  forall c sip16 sha256 m1 m2, add_closed c -> (forall x, length (sip16 x) = 16%nat) ->
  reachable4 c m1 -> reachable4 c m2 ->
  hash4 sip16 sha256 m1 = hash4 sip16 sha256 m2 ->
  m1 = m2 \/ collision sip16 \/ collision sha256.
Proof.
  intros c sip16 sha256 m1 m2 HA HL R1 R2; apply (hash4_collision c); auto; now apply reachable_good.
Qed.

Theorem C14_db4_no_crash :
  forall c m v l, reachable4 c m -> validate4 c l = E_OK -> run4 c m v l <> Crash.
Proof. intros c m v l HR; apply no_crash4; eauto using reachable_wf4. Qed.
Theorem C14_db4_history_never_crashes : forall c h, exists m rs, exec4 c empty4 h = Ret (m, rs).
Proof. intros c h; destruct (exec4_ok c h empty4 wf_nil4) as (m & rs & E & _); eauto. Qed.
Theorem C14_db4_validation_is_legality : forall c l, validate4 c l = E_OK <-> legal4 c l = true.
Proof. intros c l; rewrite validate4_legal; destruct (validate4 c l); split; congruence. Qed.

(* ------------------------------------------------------------------ *)
(* Concrete cases: a toy group of byte vectors in which the client's proof is a
   real one (z = r + k*secret). *)
Definition vec (f : N -> N -> N) (a b : bytes) : bytes := map (fun p => f (fst p) (snd p) mod 256) (combine a b).
Definition toy : crypto4 := Crypto4 (fun _ => true) (fun _ => true) (vec N.add)
  (fun k p => Some (vec N.mul k p)) (fun k => Some k) (fun a b => Some (vec N.add a b))
  (fun h => Some (firstn 32 h)) (fun s => repeat (fold_left (fun a x => (3 * a + x) mod 256) s 1) 64) (firstn 32).
Lemma toy_add_closed : add_closed toy.
Proof.
  intros a b Ha Hb. unfold is_scalar in *. cbn [sc_valid sc_add toy] in *. unfold vec.
  rewrite map_length, combine_length. lia.
Qed.
Definition x4_id : bytes := repeat 7 16.
Definition x4_log q := In4 true (Log4 x4_id q).
Definition x4_create t := x4_log (Create4 t (repeat 3 32) (repeat 5 32) (repeat 11 32) (repeat 2 32) 1).
Definition x4_restore := x4_log (Restore1_4 (repeat 4 32)).
Definition x4_start := x4_log (RotateStart4 2 (repeat 10 32) (repeat 8 32)).
Definition x4_commit := x4_log (RotateCommit4 2).
Definition x4_back := x4_log (RotateRollback4 2).
Definition x4_query := x4_log Query4.
Definition x4_other := In4 true (Log4 (repeat 8 16) (Create4 200 (repeat 3 32) (repeat 5 32) (repeat 11 32) (repeat 2 32) 1)).
Definition answers4 (h : list in4) : list (option resp4) :=
  match exec4 toy empty4 h with Ret (_, rs) => map (option_map fst) rs | Crash => [] end.
Definition state4 (h : list in4) : db4 := match exec4 toy empty4 h with Ret (m, _) => m | Crash => empty4 end.

Example x4_limit :
  map (option_map (fun r => match r with RspRestore1_4 s _ t => (s, t) | _ => (S4_ERROR, 99) end))
    (answers4 [x4_create 2; x4_restore; x4_restore; x4_restore]) =
  [Some (S4_ERROR, 99); Some (S4_OK, 1); Some (S4_OK, 0); Some (S4_MISSING, 0)].
Proof. vm_compute; reflexivity. Qed.
Example x4_hypotheses :
  legal4 toy (i4_log (x4_create 2)) = true /\ is_point toy (repeat 4 32) = true /\
  none_of (is_reset4 toy x4_id) [x4_restore; x4_start] /\ none_of (is_remove4 toy x4_id) [x4_restore; x4_start] /\
  is_restore4 toy x4_id x4_restore = true /\
  legal4 toy (i4_log x4_start) = true /\ none_of (is_create4 toy x4_id) [x4_restore] /\
  none_of (is_finish4 toy x4_id 2) [x4_restore].
Proof.
  repeat split; try (vm_compute; reflexivity); intros x Hx; cbn in Hx;
    repeat destruct Hx as [<-|Hx]; try contradiction; vm_compute; reflexivity.
Qed.
Example x4_rotation :
  account4 x4_id (state4 [x4_create 5; x4_start; x4_restore; x4_commit]) =
    Some (Row4 (repeat 5 32) (repeat 13 32) (repeat 3 32) (repeat 2 32) 2 4, None) /\
  account4 x4_id (state4 [x4_create 5; x4_start; x4_restore; x4_back]) =
    account4 x4_id (state4 [x4_create 4]) /\
  account4 x4_id (state4 [x4_create 5; x4_start]) =
    Some (Row4 (repeat 5 32) (repeat 3 32) (repeat 11 32) (repeat 2 32) 1 5,
          Some (RRow4 2 (repeat 10 32) (repeat 8 32))).
Proof. vm_compute; auto. Qed.
Example x4_reachable : reachable4 toy (state4 [x4_create 5; x4_start]).
Proof.
  eexists [x4_create 5; x4_start], _. split; [repeat constructor|]. vm_compute; reflexivity.
Qed.
(* an honest client: secret 5, nonce 9 *)
Definition x4_hh : bytes := repeat 1 32.
Definition x4_k : bytes := sc_reduce toy (sha512 toy (repeat 9 32 ++ repeat 4 32 ++ x4_hh)).
Definition x4_z : bytes := vec N.add (vec N.mul x4_k (repeat 5 32)) (repeat 9 32).
Definition x4_effect (h : list in4) : sess4 :=
  match exec4 toy empty4 h with
  | Ret (_, rs) => match last rs None with Some e => SEff4 e | None => SReq4 Unset4 end
  | Crash => SReq4 Unset4 end.
Definition x4_session v z := snd (sess_run4 toy x4_hh x4_id None
  [SReq4 (Restore1_4 (repeat 4 32)); x4_effect [x4_create 5; x4_start; x4_restore];
   SReq4 (Restore2_4 (repeat 9 32) z v); SReq4 (Restore2_4 (repeat 9 32) z v)]).
Example x4_restore2 :
  map (fun a => match a with SA_Resp (RspRestore2_4 s sh) => Some (s, sh) | _ => None end) (x4_session 1 x4_z) =
    [None; None; Some (S4_OK, repeat 11 32); Some (S4_RESTORE1_MISSING, [])] /\
  map (fun a => match a with SA_Resp (RspRestore2_4 s sh) => Some (s, sh) | _ => None end) (x4_session 2 x4_z) =
    [None; None; Some (S4_OK, repeat 3 32); Some (S4_RESTORE1_MISSING, [])] /\
  map (fun a => match a with SA_Resp (RspRestore2_4 s sh) => Some (s, sh) | _ => None end) (x4_session 1 (repeat 0 32)) =
    [None; None; Some (S4_ERROR, []); Some (S4_RESTORE1_MISSING, [])].
Proof. vm_compute; auto. Qed.
(* Version 0 with no rotation pending is answered OK with an empty share. *)
Example x4_version0 :
  nth 2 (snd (sess_run4 toy x4_hh x4_id None
    [SReq4 (Restore1_4 (repeat 4 32)); x4_effect [x4_create 5; x4_restore];
     SReq4 (Restore2_4 (repeat 9 32) x4_z 0)])) SA_Continue = SA_Resp (RspRestore2_4 S4_OK []).
Proof. vm_compute; reflexivity. Qed.
Example x4_transfer :
  let m := state4 [x4_other; x4_create 5; x4_start] in
  length (rows4 m) = 2%nat /\ length (rots4 m) = 1%nat /\
  transfer (rows_as_protos4 m) (load_rows4 toy) empty4 [] [1%nat; 5%nat] = Ret (m, E_OK).
Proof. vm_compute; auto. Qed.

(* C15: the published bound is too small already for an account in rotation
   (fixed64 fields take 9 bytes, 5 are counted); 243 is the true bound. *)
Theorem C15_db4_refuted : ~ (forall c m k x, add_closed c -> reachable4 c m -> account4 k m = Some x ->
  (length (ser_row4 (row_proto4 k x)) <= max_row_size4)%nat).
Proof.
  intros H. specialize (H toy _ x4_id _ toy_add_closed x4_reachable eq_refl).
  apply Nat.leb_le in H. vm_compute in H. discriminate.
Qed.
Theorem C15_db4_row_size_bound :
  forall c m k x, add_closed c -> reachable4 c m -> account4 k m = Some x ->
  (length (ser_row4 (row_proto4 k x)) <= 243)%nat.
Proof.
  intros c m k [r o] HA HR E. apply reachable_good in HR as [_ G]; auto.
  specialize (G k). rewrite E in G. now apply (row_size4 c).
Qed.

Print Assumptions C09_restore_limit.
Print Assumptions C09_query_truthful.
Print Assumptions C10_commit.
Print Assumptions C10_rollback.
Print Assumptions C10_other_versions_have_no_effect.
Print Assumptions C10_same_version_refused.
Print Assumptions C10_create_cancels_rotation.
Print Assumptions C10_restore_sees_both.
Print Assumptions C11_restore2_gated.
Print Assumptions C11_commitment_of_last_create.
Print Assumptions C05_db4_isolation.
Print Assumptions C06_db4_remove_final.
Print Assumptions C12_db4_transfer_lossless.
Print Assumptions C12_db4_load_rejects_bad_rows.
Print Assumptions C13_db4_same_contents_same_hash.
Print Assumptions C13_db4_different_contents.
Print Assumptions C14_db4_no_crash.
Print Assumptions C15_db4_refuted.
Print Assumptions C15_db4_row_size_bound.
