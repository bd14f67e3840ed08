(* C45: client ids; C57, C58: the keys and evidence clients are given. *)
From Verif Require Import Client ClientSpec ClientProofs Hist HistSpec.

(* C45: an id is never handed out twice, and never 0 *)
Theorem C45_ids_unique :
  forall A (h : list (cop A)) s rs, exec cstep new_manager h = Ret (s, rs) -> 1 + count opens h < 2 ^ 64 ->
  NoDup (ids rs) /\ ~ In 0 (ids rs).
Proof.
  intros A h s rs E Hn. destruct (ids_exec h new_manager s rs [] ids_start Hn E) as [H [_ Hb]]. split.
  - now apply nodup_l in H.
  - intros Hi. assert (H0 : 0 < 0 < c_next s) by (apply Hb; rewrite in_app_iff; auto). lia.
Qed.
(* C45: what is sent under an id goes to the client handed out under it and not
   closed since *)
Theorem C45_lookup_finds_that_client :
  forall A (h : list (cop A)) s rs id, exec cstep new_manager h = Ret (s, rs) ->
  cstep s (CGet id) = Ret (s, CrGet (current id h rs None)).
Proof. intros A h s rs id E. cbn [cstep]. rewrite (current_exec h _ _ _ id E). reflexivity. Qed.
(* C45: from the moment it is handed out to its removal, an id leads to its client *)
Theorem C45_open_until_closed :
  forall A (h1 h2 : list (cop A)) i id c s1 rs1 s2 s3 rs2,
  exec cstep new_manager h1 = Ret (s1, rs1) -> cstep s1 (CFinish i) = Ret (s2, CrNew id c) -> exec cstep s2 h2 = Ret (s3, rs2) ->
  1 + count opens (h1 ++ h2) < 2 ^ 64 -> none_of (closes id) h2 ->
  cstep s3 (CGet id) = Ret (s3, CrGet (Some c)).
Proof.
  intros A h1 h2 i id c s1 rs1 s2 s3 rs2 E1 E2 E3 Hn Hc.
  assert (E : exec cstep new_manager (h1 ++ CFinish i :: h2) = Ret (s3, rs1 ++ CrNew id c :: rs2)).
  { rewrite exec_app, E1. cbn [exec]. rewrite E2, E3. reflexivity. }
  destruct (C45_ids_unique _ _ _ _ E) as [Hu _].
  { rewrite count_app in Hn. rewrite count_app, count_cons. cbn [opens]. lia. }
  unfold ids in Hu. rewrite flat_map_app in Hu. cbn [flat_map app] in Hu. apply NoDup_remove in Hu as [_ Hu]. rewrite in_app_iff in Hu.
  cbn [cstep]. rewrite (current_exec h2 _ _ _ id E3), current_kept.
  - rewrite (current_one _ _ _ _ id E2). cbn [current]. now rewrite N.eqb_refl.
  - assumption.
  - unfold ids. tauto.
Qed.
(* C45: once closed, an id leads nowhere, ever *)
Theorem C45_closed_stays_closed :
  forall A (h1 h2 : list (cop A)) id s1 rs1 s2 s3 rs2,
  exec cstep new_manager h1 = Ret (s1, rs1) -> cstep s1 (CRemove id) = Ret (s2, CrRemoved true) -> exec cstep s2 h2 = Ret (s3, rs2) ->
  1 + count opens (h1 ++ h2) < 2 ^ 64 ->
  cstep s3 (CGet id) = Ret (s3, CrGet None).
Proof.
  intros A h1 h2 id s1 rs1 s2 s3 rs2 E1 E2 E3 Hn.
  assert (E : exec cstep new_manager (h1 ++ CRemove id :: h2) = Ret (s3, rs1 ++ CrRemoved true :: rs2)).
  { rewrite exec_app, E1. cbn [exec]. rewrite E2, E3. reflexivity. }
  destruct (C45_ids_unique _ _ _ _ E) as [Hu _].
  { rewrite count_app in Hn. rewrite count_app, count_cons. cbn [opens]. lia. }
  unfold ids in Hu. rewrite flat_map_app in Hu. cbn [flat_map app] in Hu.
  assert (Hf : find_client id (c_clients s1) <> None) by (cbn [cstep] in E2; destruct (find_client id (c_clients s1)); [discriminate|discriminate]).
  rewrite (current_exec h1 _ _ _ id E1) in Hf. apply current_in in Hf as [Hf|Hf]; [|now destruct Hf].
  cbn [cstep]. rewrite (current_exec h2 _ _ _ id E3), (current_one _ _ _ _ id E2). cbn [current]. rewrite N.eqb_refl.
  rewrite current_none; [reflexivity|]. intros Hi. exact (nodup_apart _ _ _ Hu Hf Hi).
Qed.

(* C57: whatever runs concurrently, a connection is made with the evidence in
   force when it was opened, and its key is the one in that evidence; before any
   evidence was made it has none. *)
Theorem C57_evidence_is_for_the_key :
  forall A (h : list (cop A)) s rs id c, exec cstep new_manager h = Ret (s, rs) -> In (CrNew id c) rs ->
  exists rs1 rs2, rs = rs1 ++ CrOpening id :: rs2 /\ cl_att c = in_force rs1 None /\
  forall a, cl_att c = Some a -> cl_key c = at_key a.
Proof.
  intros A h s rs id c E Hi. destruct (force_exec h [] _ _ _ force_start E) as [_ [_ [_ H]]].
  destruct (H id c Hi) as [r1 [r2 [H1 [H2 H3]]]]. exists r1, r2. split; [exact H1|]. split; [exact H2|]. intros a Ea. now rewrite Ea in H3.
Qed.

(* C58 is false: a refresh that runs while the key is rotated puts the old key
   back.  Keys are numbered as they are made. *)
Definition x_rotated : list (cop N) :=
  [CRefresh 5; CRotate 6 true; CFinish 0; CEvidence 0 true; CFinish 0; CNew [] true; CFinish 0].
Theorem C58_old_keys_are_not_used_again_refuted :
  exists (h : list (cop N)) s rs rs1 a rs2 id c,
  exec cstep new_manager h = Ret (s, rs) /\ rs = rs1 ++ CrAttested true a :: rs2 /\ In (CrOpening id) rs2 /\ In (CrNew id c) rs2 /\
  cl_key c < at_key a.
Proof.
  exists x_rotated. eexists _, _, [CrStarted; CrStarted], (Att 1 6), _, 1, _.
  split; [vm_compute; reflexivity|]. split; [reflexivity|]. split; [cbn; tauto|]. split; [right; right; right; left; reflexivity|]. vm_compute. reflexivity.
Qed.
(* C58 if rotations and refreshes do not overlap: a connection opened after a
   rotation or refresh took effect uses that key or a later one *)
Theorem C58_old_keys_are_not_used_again_partial :
  forall A (h : list (cop A)) s rs rs1 rot a rs2 id c,
  exec cstep new_manager h = Ret (s, rs) -> serial false h rs = true -> 1 + count opens h < 2 ^ 64 ->
  rs = rs1 ++ CrAttested rot a :: rs2 -> In (CrOpening id) rs2 -> In (CrNew id c) rs ->
  at_key a <= cl_key c.
Proof.
  intros A h s rs rs1 rot a rs2 id c E Hs Hn Er Ho Hi.
  pose proof (C57_evidence_is_for_the_key _ _ _ _ _ _ E Hi) as [q1 [q2 [Eq [Ha Hk]]]].
  assert (Hu := openings_unique h s rs E Hn).
  apply in_split in Ho as [p1 [p2 Ep]]. subst rs2.
  assert (Es : q1 = rs1 ++ CrAttested rot a :: p1).
  { apply (opening_split rs _ _ id q2 p2 Hu Eq). rewrite Er, <- app_assoc. reflexivity. }
  rewrite Es, in_force_app in Ha. cbn [in_force] in Ha.
  assert (Hx := serial_exec h false _ _ _ [] busy_start force_start Hs E rs1 rot a p1 (CrOpening id :: p2) Er).
  rewrite <- Ha in Hx. destruct (cl_att c) as [b|]; [rewrite (Hk b eq_refl); exact Hx|]. lia.
Qed.

(* --- concrete cases ------------------------------------------------------- *)
(* two clients around a rotation, one closed in between *)
Definition x_ops : list (cop N) :=
  [CRefresh 5; CEvidence 0 true; CFinish 0; CNew [1] true; CNew [2] false; CFinish 0; CRotate 6 true; CFinish 0;
   CNew [3] true; CFinish 0; CRemove 1; CGet 1; CGet 3].
Example x_clients : exists s rs, exec cstep new_manager x_ops = Ret (s, rs) /\ serial false x_ops rs = true /\ ids rs = [1; 3] /\
  1 + count opens x_ops < 2 ^ 64 /\
  skipn 9 rs = [CrNew 3 (Client [3] 1 (Some (Att 1 6))); CrRemoved true; CrGet None; CrGet (Some (Client [3] 1 (Some (Att 1 6))))].
Proof. eexists _, _. split; [vm_compute; reflexivity|]. repeat split; vm_compute; reflexivity. Qed.

(* C58: a rotation really brings a new key: one that no rotation or refresh before it
   put into force, and not the key the enclave started with *)
Theorem C58_rotation_brings_a_new_key_partial :
  forall A (h : list (cop A)) s rs rs1 a rs2,
  exec cstep new_manager h = Ret (s, rs) -> rs = rs1 ++ CrAttested true a :: rs2 ->
  at_key a <> 0 /\ forall rot b, In (CrAttested rot b) rs1 -> at_key b <> at_key a.
Proof.
  intros A h s rs rs1 a rs2 E Er. subst rs.
  pose proof (fresh_exec h _ _ _ [0] fresh_start E rs1 a rs2 eq_refl) as H. split.
  - intros H0. apply H. rewrite H0. left; reflexivity.
  - intros rot b Hb Hk. apply H. rewrite <- Hk. apply in_or_app. right. apply in_flat_map. exists (CrAttested rot b). split; [assumption|]. left; reflexivity.
Qed.
(* two rotations and a refresh *)
Example x_rotations : exists s rs1 rs2, exec (@cstep N) new_manager
  [CRotate 5 true; CFinish 0; CRefresh 6; CEvidence 0 true; CFinish 0; CRotate 7 true; CFinish 0] =
  Ret (s, rs1 ++ CrAttested true (Att 2 7) :: rs2) /\ In (CrAttested false (Att 1 6)) rs1 /\ In (CrAttested true (Att 1 5)) rs1.
Proof.
  eexists _, [CrStarted; CrAttested true (Att 1 5); CrStarted; CrStarted; CrAttested false (Att 1 6); CrStarted], [].
  split; [vm_compute; reflexivity|]. cbn; tauto.
Qed.

Print Assumptions C45_ids_unique.
Print Assumptions C45_lookup_finds_that_client.
Print Assumptions C45_open_until_closed.
Print Assumptions C45_closed_stays_closed.
Print Assumptions C57_evidence_is_for_the_key.
Print Assumptions C58_old_keys_are_not_used_again_refuted.
Print Assumptions C58_old_keys_are_not_used_again_partial.
Print Assumptions C58_rotation_brings_a_new_key_partial.
