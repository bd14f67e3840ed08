(* Properties of the integrity tree (merkle.cc) and of the stores that use it.
   Vocabulary: MerkleSpec.v.  [sip8] is the tree's keyed hash, [sip16] the hash
   of a row; both are arbitrary functions of the right output length, and every
   detection claim says "or a collision of one of them is at hand".
   [collision f] is  exists x y, x <> y /\ f x = f y. *)
From Verif Require Import MerkleDB MerkleSpec DBHashProofs MerkleProofs MerkleTamper MerkleDBProofs MerkleDBTamper.
From Verif Require Import DB2Spec DB2Proofs DB3Spec DB3Proofs DB4Spec DB4Proofs DB4Transfer DB5Spec DB5Proofs.

(* C16.  After any history of leaf creations, updates and destructions, no step
   of which crashed, Verify accepts exactly the hash last given to the leaf. *)
Theorem C16_leaves_verify :
  forall sip8 h, well_used h ->
  exists t, mrun sip8 (empty_tree sip8) h = Ret t /\
    forall id c, verify sip8 id c t =
      match current id h with
      | None => Crash
      | Some x => Ret (if beq c x then V_OK else V_VerifyLeaf)
      end.
Proof. exact completeness. Qed.

(* C16 for the stores: whatever the requests, nothing crashes, and the answers
   are those of the store in which every integrity check succeeds. *)
Section Stores.
Variable sip8 sip16 : bytes -> bytes.
Hypothesis sip8_len : forall x, length (sip8 x) = 8%nat.
Hypothesis sip16_len : forall x, length (sip16 x) = 16%nat.

Theorem C16_db2_checks_pass :
  forall ls, exists m t rs,
  mdb2_exec sip8 sip16 ([], empty_tree sip8) ls = Ret ((m, t), rs) /\
  exec (fun s l => apply2 s (In2 true l)) [] ls = Ret (m, rs).
Proof.
  intros ls.
  destruct (untampered sip8 sip16 sip8_len sip16_len l_id hb2 (fun m v l => apply2 m (In2 v l)) acts2 wf_db
              hb2_ok acts2_adequate [] (empty_tree sip8) ls wf_nil) as (s' & t' & rs' & E1 & E2 & _).
  { apply mirror_empty; auto. }
  exists s', t', rs'. auto.
Qed.
Theorem C16_db3_checks_pass :
  forall smul ls, exists m t rs,
  mdb3_exec smul sip8 sip16 ([], empty_tree sip8) ls = Ret ((m, t), rs) /\
  exec (fun s l => apply3 smul s (In3 true l)) [] ls = Ret (m, rs).
Proof.
  intros smul ls.
  destruct (untampered sip8 sip16 sip8_len sip16_len l3_id hb3 (fun m v l => apply3 smul m (In3 v l)) (acts3 smul) wf_db3
              (fun s k _ => hb3_ok s k) (acts3_adequate smul) [] (empty_tree sip8) ls wf_nil3) as (s' & t' & rs' & E1 & E2 & _).
  { apply mirror_empty; auto. }
  exists s', t', rs'. auto.
Qed.
Theorem C16_db4_checks_pass :
  forall c ls, exists m t rs,
  mdb4_exec c sip8 sip16 (empty4, empty_tree sip8) ls = Ret ((m, t), rs) /\
  exec (fun s l => apply4 c s (In4 true l)) empty4 ls = Ret (m, rs).
Proof.
  intros c ls.
  destruct (untampered sip8 sip16 sip8_len sip16_len l4_id hb4 (fun m v l => apply4 c m (In4 v l)) (fun m v l => acts4 m v l c) wf_db4
              (fun s k _ => hb4_ok s k) (acts4_adequate c) empty4 (empty_tree sip8) ls wf_nil4) as (s' & t' & rs' & E1 & E2 & _).
  { apply mirror_empty; auto. }
  exists s', t', rs'. auto.
Qed.
Theorem C16_db5_checks_pass :
  forall hmac ls, exists m t rs,
  mdb5_exec hmac sip8 sip16 ([], empty_tree sip8) ls = Ret ((m, t), rs) /\
  exec (fun s l => apply5 hmac s (In5 true l)) [] ls = Ret (m, rs).
Proof.
  intros hmac ls.
  destruct (untampered sip8 sip16 sip8_len sip16_len l5_id hb5 (fun m v l => apply5 hmac m (In5 v l)) acts5 wf_db5
              (fun s k _ => hb5_ok s k) (acts5_adequate hmac) [] (empty_tree sip8) ls wf_nil5) as (s' & t' & rs' & E1 & E2 & _).
  { apply mirror_empty; auto. }
  exists s', t', rs'. auto.
Qed.

(* C17.  [t'] is the memory of the tree t after any of its hashes were
   overwritten (the root hash is kept apart); a Verify that still succeeds was
   given the hash the leaf really has. *)
Theorem C17_tampering_detected :
  forall h t t' id c, well_used h -> Forall op_sized h ->
  mrun sip8 (empty_tree sip8) h = Ret t -> tampered t t' ->
  verify sip8 id c t' = Ret V_OK -> current id h = Some c \/ collision sip8.
Proof.
  intros h t t' id c U S E T V. apply (attacked_verify sip8 sip8_len h t' id c); [|exact V].
  eapply att_tamper; [|exact T]. now apply att_start.
Qed.
(* C17 for the stores: the rows m' and the tree t' may have been overwritten in
   any way that the types of their fields allow. *)
Theorem C17_db2_restore_truthful :
  forall ls m t rs m' t' id pin st' s d k,
  mdb2_exec sip8 sip16 ([], empty_tree sip8) ls = Ret ((m, t), rs) ->
  tampered t t' -> (forall r', lookup id m' = Some r' -> typed_row2 r') ->
  mdb2_step sip8 sip16 (m', t') (Log2 id (Restore pin)) = Ret (st', Some (RspRestore s d k)) ->
  s = RS_OK \/ s = RS_PIN_MISMATCH ->
  (exists st, mdb2_step sip8 sip16 (m, t) (Log2 id (Restore pin)) = Ret (st, Some (RspRestore s d k)))
  \/ collision sip8 \/ collision (rowhash sip16).
Proof. exact (restore_truthful2 sip8 sip16 sip8_len sip16_len). Qed.
Theorem C17_db3_evaluate_truthful :
  forall smul ls m t rs m' t' id e p st' ev n,
  mdb3_exec smul sip8 sip16 ([], empty_tree sip8) ls = Ret ((m, t), rs) ->
  tampered t t' -> (forall r', lookup id m' = Some r' -> typed_row3 r') ->
  mdb3_step smul sip8 sip16 (m', t') (Log3 id (Evaluate3 e) p) = Ret (st', Some (RspEvaluate3 S3_OK ev n)) ->
  (exists st, mdb3_step smul sip8 sip16 (m, t) (Log3 id (Evaluate3 e) p) = Ret (st, Some (RspEvaluate3 S3_OK ev n)))
  \/ collision sip8 \/ collision (rowhash sip16).
Proof. exact (evaluate_truthful3 sip8 sip16 sip8_len sip16_len). Qed.
(* SVR4's row check cannot tell "no rotation under way" from an all-zero one. *)
Theorem C17_db4_row_truthful :
  forall c ls m t rs m' t' id r' o',
  add_closed c -> Forall (fun l => typed4 (In4 true l) = true) ls ->
  mdb4_exec c sip8 sip16 (empty4, empty_tree sip8) ls = Ret ((m, t), rs) ->
  tampered t t' -> account4 id m' = Some (r', o') ->
  typed_row4 r' -> (forall x, o' = Some x -> typed_rrow4 x) ->
  verdict_of sip8 sip16 hb4 m' t' id = Ret true ->
  (exists a, account4 id m = Some a /\ same_acct4 a (r', o'))
  \/ collision sip8 \/ collision (rowhash sip16).
Proof. exact (tampered_row4 sip8 sip16 sip8_len sip16_len). Qed.
Theorem C17_db5_download_truthful :
  forall hmac ls m t rs m' t' id p st' d,
  mdb5_exec hmac sip8 sip16 ([], empty_tree sip8) ls = Ret ((m, t), rs) ->
  tampered t t' ->
  mdb5_step hmac sip8 sip16 (m', t') (Log5 id (Download5 p)) = Ret (st', Some (RspDownload5 S5_OK d)) ->
  (exists st, mdb5_step hmac sip8 sip16 (m, t) (Log5 id (Download5 p)) = Ret (st, Some (RspDownload5 S5_OK d)))
  \/ collision sip8 \/ collision (rowhash sip16).
Proof. exact (download_truthful5 sip8 sip16 sip8_len sip16_len). Qed.

(* C18, the part that holds: tampering stays detectable through any number of
   changes to other leaves, provided each of these was verified first. *)
Theorem C18_verified_writes_partial :
  forall h t id c, attacked sip8 h t -> verify sip8 id c t = Ret V_OK ->
  current id h = Some c \/ collision sip8.
Proof. exact (attacked_verify sip8 sip8_len). Qed.

(* C18 is false of the code: an update of another leaf without a Verify (as in
   Backup, Create and Upload over an existing row) makes a rolled-back leaf
   verify again.  No collision is involved: it holds for every hash. *)
Theorem C18_refuted :
  exists h id other old new y t t' u,
  well_used h /\ Forall op_sized h /\ mrun sip8 (empty_tree sip8) h = Ret t /\
  tampered t t' /\ update sip8 other y t' = Ret u /\ other <> id /\ length y = 8%nat /\
  current id (h ++ [MUpdate other y]) = Some new /\ old <> new /\
  verify sip8 id old t = Ret V_VerifyLeaf /\ verify sip8 id old u = Ret V_OK.
Proof.
  set (x0 := repeat 1 8). set (x1 := repeat 2 8). set (y0 := repeat 3 8). set (y1 := repeat 4 8).
  set (rt x y := SFull x (Leaf [1]) (SFull y (Leaf [2]) (SEmpty zero_hash (SEmpty zero_hash (SEmpty zero_hash SNil))))).
  set (h := [MAdd [1] x0; MAdd [2] y0; MUpdate [1] x1]).
  assert (U : well_used h).
  { intros h1 o h2 E. destruct h1 as [|o1 [|o2 [|o3 [|o4 h1]]]]; cbn in E; try discriminate; injection E as; subst; cbn; discriminate || reflexivity. }
  exists h, [1], [2], x0, x1, y1,
    (Tree (compute sip8 (rt x1 y0)) true (rt x1 y0)),
    (Tree (compute sip8 (rt x1 y0)) true (rt x0 y0)),
    (Tree (compute sip8 (rt x0 y1)) true (rt x0 y1)).
  split; [exact U|]. split; [repeat constructor|]. split; [reflexivity|].
  split; [cbn; repeat split; auto|]. split; [reflexivity|]. split; [discriminate|]. split; [reflexivity|].
  split; [reflexivity|]. split; [discriminate|]. split; [reflexivity|].
  unfold verify. cbn [verify_slots verify_part root roothash rt].
  cbn [beq]. change (beq x0 x0) with true. cbn [andb]. now rewrite beq_refl.
Qed.
End Stores.

(* C18, end to end for SVR2 with a toy hash: an account with two tries answers
   three wrong guesses PIN_MISMATCH, because its row and leaf were rolled back
   and another account's Backup re-hashed the path. *)
Definition toy (seed : N) (b : bytes) : N :=
  fold_left (fun a x => (a * 1000003 + x + seed) mod 18446744073709551557) b seed.
Definition toy8 (b : bytes) : bytes := be64 (toy 12345 b).
Definition toy16 (b : bytes) : bytes := be64 (toy 54321 b) ++ be64 (toy 98765 b).
Definition mx_a : bytes := repeat 7 16.
Definition mx_b : bytes := repeat 8 16.
Definition mx_pin : bytes := repeat 1 32.
Definition mx_bad : bytes := repeat 2 32.
Definition mx_data : bytes := repeat 9 48.
Definition mx_start : list log2 :=
  [Log2 mx_a (Backup mx_data mx_pin 2); Log2 mx_a (Expose mx_data); Log2 mx_b (Backup mx_data mx_pin 5)].
Definition mx_guess := Log2 mx_a (Restore mx_bad).
Definition mrun2 (st : outcome ((db2 * tree) * list (option resp2))) (ls : list log2) : outcome ((db2 * tree) * list (option resp2)) :=
  match st with Ret (s, _) => mdb2_exec toy8 toy16 s ls | Crash => Crash end.
Definition mx_s0 : outcome ((db2 * tree) * list (option resp2)) := mdb2_exec toy8 toy16 ([], empty_tree toy8) mx_start.
Definition mx_s1 : outcome ((db2 * tree) * list (option resp2)) := mrun2 mx_s0 [mx_guess].
(* the attacker puts back A's row and leaf hash of mx_s0, the root hash stays *)
Definition rolled_back (s0 s1 : outcome ((db2 * tree) * list (option resp2))) : outcome ((db2 * tree) * list (option resp2)) :=
  match s0 with
  | Ret ((m0, t0), _) =>
      match s1 with
      | Ret ((m1, t1), _) => Ret ((m0, Tree (roothash t1) (rootcurr t1) (root t0)), [])
      | Crash => Crash
      end
  | Crash => Crash
  end.
Definition mx_tampered := rolled_back mx_s0 mx_s1.
Definition tree_of (s : outcome ((db2 * tree) * list (option resp2))) : option tree :=
  match s with Ret ((_, t), _) => Some t | Crash => None end.
Definition answers_of (st : outcome ((db2 * tree) * list (option resp2))) := match st with Ret (_, r) => r | Crash => [] end.
Theorem C18_db2_refuted :
  answers_of mx_s1 = [Some (RspRestore RS_PIN_MISMATCH [] 1)] /\
  (exists t1 t1', tree_of mx_s1 = Some t1 /\ tree_of mx_tampered = Some t1' /\ tampered t1 t1') /\
  (* detected if A is read first *)
  answers_of (mrun2 mx_tampered [mx_guess]) = [Some (RspRestore RS_ERROR [] 0)] /\
  (* but not if B backs up in between *)
  answers_of (mrun2 mx_tampered [Log2 mx_b (Backup mx_data mx_bad 7); mx_guess; mx_guess]) =
    [Some RspBackup; Some (RspRestore RS_PIN_MISMATCH [] 1); Some (RspRestore RS_MISSING [] 0)].
Proof.
  split; [vm_compute; reflexivity|]. split.
  { eexists; eexists. do 2 (split; [vm_compute; reflexivity|]). vm_compute. repeat split; reflexivity. }
  split; vm_compute; reflexivity.
Qed.

(* --- the hypotheses are met --- *)
Definition ids (n : nat) : list bytes := map (fun k => [N.of_nat k]) (seq 0 n).
Definition mx_h : list mop :=
  map (fun i => MAdd i (toy8 i)) (ids 33) ++ map MRemove (ids 7) ++
  map (fun i => MUpdate i (toy8 (i ++ i))) (skipn 20 (ids 33)) ++ map (fun i => MAdd i (toy8 (i ++ [1]))) (ids 3).
Definition mx_t := match mrun toy8 (empty_tree toy8) mx_h with Ret t => t | Crash => empty_tree toy8 end.
Example ex_tree_grows : (* three levels, with removed and re-added leaves *)
  mrun toy8 (empty_tree toy8) mx_h = Ret mx_t /\
  verify toy8 [25] (toy8 [25; 25]) mx_t = Ret V_OK /\
  verify toy8 [25] (toy8 [25]) mx_t = Ret V_VerifyLeaf /\
  verify toy8 [1] (toy8 [1; 1]) mx_t = Ret V_OK /\
  verify toy8 [5] (toy8 [5]) mx_t = Crash /\
  match root mx_t with SFull _ (Node _ (SEmpty _ (SFull _ (Node _ _) _))) _ => True | _ => False end.
Proof. do 5 (split; [vm_compute; reflexivity|]). vm_compute. exact I. Qed.
(* the boolean form of [well_used], to check a history by computation *)
Fixpoint used_from (h1 h : list mop) : bool :=
  match h with
  | [] => true
  | o :: h2 =>
      (match o with
       | MAdd id _ => match current id h1 with None => true | _ => false end
       | MUpdate id _ | MRemove id => match current id h1 with None => false | _ => true end
       end && used_from (h1 ++ [o]) h2)%bool
  end.
Lemma used_from_ok : forall h h1, used_from h1 h = true ->
  forall a o b, h = a ++ o :: b ->
  match o with MAdd id _ => current id (h1 ++ a) = None | MUpdate id _ | MRemove id => current id (h1 ++ a) <> None end.
Proof.
  induction h as [|x h IH]; intros h1 H a o b E; [destruct a; discriminate|].
  cbn in H. apply andb_true_iff in H as [H1 H2]. destruct a as [|y a].
  - cbn in E. injection E as -> ->. rewrite app_nil_r.
    destruct o; destruct (current _ h1); congruence.
  - injection E as -> E. specialize (IH _ H2 a o b E). now rewrite <- app_assoc in IH.
Qed.
Example ex_well_used : well_used mx_h.
Proof. intros a o b E. apply (used_from_ok mx_h [] ltac:(vm_compute; reflexivity) a o b E). Qed.
Example ex_op_sized : Forall op_sized mx_h.
Proof. vm_compute. repeat constructor. Qed.
Example ex_hash_lengths : (forall x, length (toy8 x) = 8%nat) /\ (forall x, length (toy16 x) = 16%nat).
Proof. split; intros x; reflexivity. Qed.
(* a tampered tree on which the Verify of another leaf still succeeds *)
Example ex_attacked : exists t' u, tampered mx_t t' /\ t' <> mx_t /\
  verify toy8 [30] (toy8 [30; 30]) t' = Ret V_OK /\ update toy8 [30] (toy8 []) t' = Ret u /\
  attacked toy8 (mx_h ++ [MUpdate [30] (toy8 [])]) u /\
  verify toy8 [30] (toy8 []) u = Ret V_OK /\ verify toy8 [7] (toy8 [7]) u = Ret V_VerifyLeaf.
Proof.
  (* overwrite leaf 7's hash *)
  pose (f := fix fp (p : part) := match p with Leaf i => Leaf i | Node c s => Node c (fs s) end
        with fs (s : slots) := match s with SNil => SNil | SEmpty h s' => SEmpty h (fs s')
          | SFull h p s' => SFull (match p with Leaf [7] => repeat 0 8 | _ => h end) (fp p) (fs s') end for fs).
  set (t' := Tree (roothash mx_t) (rootcurr mx_t) (f (root mx_t))).
  set (u := match update toy8 [30] (toy8 []) t' with Ret u => u | Crash => t' end).
  assert (T : tampered mx_t t') by (vm_compute; repeat split; reflexivity).
  assert (V : verify toy8 [30] (toy8 [30; 30]) t' = Ret V_OK) by (vm_compute; reflexivity).
  assert (Up : update toy8 [30] (toy8 []) t' = Ret u) by (vm_compute; reflexivity).
  exists t', u. split; [exact T|]. split; [vm_compute; discriminate|]. split; [exact V|]. split; [exact Up|].
  split; [|split; vm_compute; reflexivity].
  eapply att_update; [|exact V|reflexivity|exact Up]. eapply att_tamper; [|exact T].
  exact (att_start toy8 mx_h mx_t ex_well_used ex_op_sized (proj1 ex_tree_grows)).
Qed.
Definition row_of (id : bytes) (s : outcome ((db2 * tree) * list (option resp2))) : option row2 :=
  match s with Ret ((m, _), _) => lookup id m | Crash => None end.
Example ex_db2_row :
  row_of mx_a mx_s1 = Some (Row2 AVAILABLE 1 48 mx_data mx_pin) /\
  typed_row2 (Row2 AVAILABLE 1 48 mx_data mx_pin).
Proof. split; [vm_compute; reflexivity|]. repeat split. Qed.

Print Assumptions C16_leaves_verify.
Print Assumptions C16_db4_checks_pass.
Print Assumptions C17_tampering_detected.
Print Assumptions C17_db2_restore_truthful.
Print Assumptions C17_db4_row_truthful.
Print Assumptions C18_verified_writes_partial.
Print Assumptions C18_refuted.
Print Assumptions C18_db2_refuted.
