(* C78: a user whose DELETE is answered with 200 has no backup any more. *)
From Verif Require Import HostWeb HostWebSpec HostWebProofs GroupDeleteSpec GroupDeleteProofs RaftNetSpec CoreTxSpec RaftSpec
  DB2 DB2Spec DB3 DB3Spec DB4 DB4Spec DB5 DB5Spec P_DB3 P_DB4 P_Membership P_Raft P_RaftNet P_Group P_HostWeb.

(* 200 is said only if the enclave was asked to run [delete_request] for the user whose
   credentials were checked, and has not answered with an error *)
Theorem C78_200_means_no_error sees limiter upgrade enclave can_send user pass is_delete :
  let tr := serve_client sees limiter upgrade enclave can_send user pass (EDelete is_delete) in
  In (AStatus 200) tr -> sees [] user pass = true /\
    exists id r, names user id /\ In (AEnclave (QDb id delete_request) r) tr /\ r <> PFail /\ (forall code, r = PStatus code -> code = 0).
Proof.
  cbn zeta. intros H. destruct (asks_dec (serve_client sees limiter upgrade enclave can_send user pass (EDelete is_delete))) as [Ha|Ha].
  - destruct (serve_asks _ _ _ _ _ _ _ _ Ha) as (Hs & v & _ & _ & _ & id & Hn & [(reads & t & X & _)|(p & _ & E)]); [discriminate|].
    split; [exact Hs|]. exists id, p. rewrite E in *. split; [exact Hn|]. split; [apply in_or_app; right; now left|].
    apply in_app_or in H as [H|[H|[H|[]]]]; [cbn in H; intuition discriminate|discriminate|].
    destruct p; try (split; [discriminate|intros ? X; discriminate]).
    split; [discriminate|]. intros c X. injection X as <-. destruct (N.eqb_spec code 0) as [|Hc]; [assumption|discriminate].
  - exfalso. destruct (serve_shape sees limiter upgrade enclave can_send user pass (EDelete is_delete)) as [(_ & E)|[(_ & _ & E)|[(_ & _ & E)|(_ & v & _ & _ & _ & E)]]]; rewrite E in *.
    1-3: cbn in H; intuition discriminate.
    unfold delete_backup in *. destruct is_delete; cbn [negb] in *; [|apply in_app_or in H as [H|[H|[]]]; [cbn in H; intuition discriminate|discriminate]].
    destruct (hex_decode user) as [id|]; [|apply in_app_or in H as [H|[H|[]]]; [cbn in H; intuition discriminate|discriminate]].
    destruct (negb _); [apply in_app_or in H as [H|[H|[]]]; [cbn in H; intuition discriminate|discriminate]|].
    apply Ha. eexists _, _. apply in_or_app. right. left. reflexivity.
Qed.

(* SVR2: when a replica tells the host that the request is done, the account is gone: each
   replica that has come as far as the request has no row for it, until a Backup for the
   id is run. *)
Theorem C78_deleted2_partial sz hmac respond min_voting M sm L0 db0 evs (g : group db2 resp2) k id d :
  reachable2 db0 -> group_reached sz hmac (apply_db2 parse_log2) respond min_voting M sm L0 db0 evs g -> gchanges_overlap M sm evs -> gno_clash g ->
  psize (g_rolled db2 resp2 g) <= sm -> ~ In k (g_rolled db2 resp2 g) -> host_told_done g host_entry2 id delete_request k d ->
  removed_by (apply_db2 parse_log2) g k d (fun db => lookup id db = None) (makes2 id).
Proof. apply removed2. Qed.
(* so that each guess that is run after it and before a Backup finds nothing *)
Theorem C78_nothing_restored2_partial sz hmac respond min_voting M sm L0 db0 evs (g : group db2 resp2) k id d :
  reachable2 db0 -> group_reached sz hmac (apply_db2 parse_log2) respond min_voting M sm L0 db0 evs g -> gchanges_overlap M sm evs -> gno_clash g ->
  psize (g_rolled db2 resp2 g) <= sm -> ~ In k (g_rolled db2 resp2 g) -> host_told_done g host_entry2 id delete_request k d ->
  exists i e0 eff0, saw g k (Took resp2 i e0 eff0) /\ e_inner e0 = IData d /\
    forall k' j e guess st data n, saw g k' (Took resp2 j e (Some (RspRestore st data n))) -> i < j -> carries parse_log2 e (Log2 id (Restore guess)) ->
      (forall k2 j2 e2 eff2, saw g k2 (Took resp2 j2 e2 eff2) -> i < j2 -> j2 < j -> ~ makes2 id e2) -> st = RS_MISSING /\ data = [].
Proof.
  intros H1 H2 H3 H4 H5 H6 H7. destruct (removed2 _ _ _ _ _ _ _ _ _ _ _ _ _ H1 H2 H3 H4 H5 H6 H7) as (i & e0 & eff0 & X1 & X2 & _ & X3).
  exists i, e0, eff0. split; [exact X1|]. split; [exact X2|]. intros k' j e guess st data n Ht Hi (x & Hx & Hp) Hno.
  destruct (X3 k' j e _ Ht Hi Hno) as (db & Hg & Ef). unfold run_one, apply_db2 in Ef. rewrite Hx, Hp in Ef. unfold apply2, run2 in Ef. cbn [i_log i_vok] in Ef.
  destruct (validate2 _); try discriminate. cbn [l_req l_id] in Ef. unfold restore2 in Ef. rewrite Hg in Ef. cbn in Ef. now injection Ef as -> -> _.
Qed.
(* SVR4: the same, for the record and the rotation in progress *)
Theorem C78_deleted4_partial sz hmac c respond min_voting M sm L0 db0 evs (g : group db4 eff4) k id d :
  reachable4 c db0 -> group_reached sz hmac (apply_db4 c) respond min_voting M sm L0 db0 evs g -> gchanges_overlap M sm evs -> gno_clash g ->
  psize (g_rolled db4 eff4 g) <= sm -> ~ In k (g_rolled db4 eff4 g) -> host_told_done g host_entry4 id delete_request k d ->
  removed_by (apply_db4 c) g k d (fun db => lookup id (rows4 db) = None /\ lookup id (rots4 db) = None) (makes4 id).
Proof. apply removed4. Qed.
(* SVR3 and SVR5 never remove anything for the host's request, in any state *)
Theorem C78_never_deleted3 smul key id d db : host_entry3 key id delete_request = Some d -> fst (apply_db3 smul db d) = db.
Proof. apply delete_keeps3. Qed.
Theorem C78_never_deleted5 hmac id d db : host_entry5 id delete_request = Some d -> fst (apply_db5 hmac db d) = db.
Proof. intros H. now rewrite (delete_keeps5 hmac id d db H). Qed.

(* --- concrete groups ------------------------------------------------------------------ *)
Section X.
Context {D E : Type}.
Variable apply : D -> bytes -> D * option E.
Variable respond : N -> E -> option bytes.
(* the host asks 1 to run d *)
Definition x_host (d : bytes) : gevent := GCall (pid 1) (CWrite 1000 AHost (IData d) true 1 true).
Fixpoint x_events (g : group D E) (cs : list (gcmd + gevent)) : list gevent :=
  match cs with
  | [] => []
  | c :: cs' => let ev := match c with inl c => gevent_of g c | inr ev => ev end in ev :: x_events (gstep toy_sizes toy_hmac D E apply respond 2 g ev) cs'
  end.
Definition x_run (db0 : D) (cs : list (gcmd + gevent)) : list gevent * group D E :=
  match x_gstart 1 db0 with
  | Ret g => let evs := x_events g cs in (evs, grun toy_sizes toy_hmac D E apply respond 2 g evs)
  | Crash => ([], Grp D E [] [] [] [] [] [] [])
  end.
Lemma x_run_reached db0 cs : (exists g0, @x_gstart D E 1 db0 = Ret g0) ->
  group_reached toy_sizes toy_hmac apply respond 2 x_group3 1 [] db0 (fst (x_run db0 cs)) (snd (x_run db0 cs)).
Proof.
  intros [g0 Eg]. exists 77, (map (x_seat 1000) [1; 2; 3]), g0. split; [apply x_may3; reflexivity|]. split; [exact Eg|].
  unfold x_run. rewrite Eg. reflexivity.
Qed.
(* 1 is elected; the host asks it; all run the request, 1 tells the host *)
Definition x_cmds78 (d : bytes) : list (gcmd + gevent) :=
  map inl [XTick 1; XPass 1 2; XPass 2 1; XPass 1 3; XPass 3 1] ++ [inr (x_host d)] ++
  map inl (xboth 5 1 2 ++ xboth 5 1 3 ++ xboth 3 1 2 ++ xboth 2 1 3 ++ [XTake 1; XTake 1; XTake 2; XTake 2]).
End X.
Section Y.
Context {D E : Type}.
(* no entry run satisfies [f], all have indices up to n *)
Definition x_none (f : bytes -> bool) (n : N) (g : group D E) : bool :=
  forallb (fun kx => match snd kx with Took _ i e _ => (i <=? n) && match e_inner e with IData d => negb (f d) | _ => true end | _ => true end) (g_seen D E g).
Lemma x_none_sound f n g k i e eff : x_none f n g = true -> saw g k (Took E i e eff) -> i <= n /\ forall d, e_inner e = IData d -> f d = false.
Proof.
  intros H Hs. unfold x_none in H. rewrite forallb_forall in H. specialize (H _ Hs). cbn [snd] in H. apply andb_true_iff in H as [H1 H2].
  split; [lia|]. intros d Hd. rewrite Hd in H2. now destruct (f d).
Qed.
Definition x_state (n : N) (f : D -> bool) (g : group D E) : bool := existsb (fun kv => (n <=? n_applied (c_node D (fst (snd kv)))) && f (c_db D (fst (snd kv)))) (g_past D E g).
Lemma x_state_sound n f g : x_state n f g = true -> exists k s A, gwas g k s A /\ n <= n_applied (c_node D s) /\ f (c_db D s) = true.
Proof.
  intros H. unfold x_state in H. apply existsb_exists in H as ([k [s A]] & H1 & H2). cbn [fst snd] in H2. apply andb_true_iff in H2 as [H2 H3].
  exists k, s, A. split; [exact H1|]. split; [lia|exact H3].
Qed.
End Y.
Definition x_id78 : bytes := repeat 7 16.
Definition x_req78 := Req 1 1000 AHost.
Definition the {A} (o : option A) (d : A) : A := match o with Some a => a | None => d end.

(* SVR2 *)
Definition x_d2 := the (host_entry2 x_id78 delete_request) [].
Definition x_h2 := [In2 true (Log2 x_id78 (Backup (repeat 9 32) (repeat 1 32) 3))].
Definition x_db2 : db2 := match exec2 [] x_h2 with Ret (m, _) => m | Crash => [] end.
Definition x_g2 := x_run (apply_db2 parse_log2) (fun _ _ => None) x_db2 (x_cmds78 x_d2).
Example x_deleted2 :
  reachable2 x_db2 /\ group_reached toy_sizes toy_hmac (apply_db2 parse_log2) (fun _ _ => None) 2 x_group3 1 [] x_db2 (fst x_g2) (snd x_g2) /\
  gchanges_overlap x_group3 1 (fst x_g2) /\ gno_clash (snd x_g2) /\ psize (g_rolled db2 resp2 (snd x_g2)) = 0 /\
  host_told_done (snd x_g2) host_entry2 x_id78 delete_request (pid 1) x_d2 /\
  map fst x_db2 = [x_id78] /\ map (fun kv => length (c_db db2 (fst (snd kv)))) (g_now db2 resp2 (snd x_g2)) = [0; 0; 1]%nat.
Proof.
  split. { exists x_h2; eexists. vm_compute. reflexivity. }
  split; [refine (x_run_reached (apply_db2 parse_log2) (fun _ _ => None) x_db2 (x_cmds78 x_d2) _); eexists; vm_compute; reflexivity|].
  split; [apply gfixed_b_changes; vm_compute; reflexivity|]. split; [apply gno_clash_b_sound; vm_compute; reflexivity|]. split; [vm_compute; reflexivity|].
  split. { split; [vm_compute; reflexivity|]. exists x_req78. split; [reflexivity|]. split; vm_compute; repeat first [left; reflexivity|right]. }
  split; vm_compute; reflexivity.
Qed.
(* SVR4 *)
Definition x_d4 := the (host_entry4 x_id78 delete_request) [].
Definition x_h4 := [x4_create 3; x4_start].
Definition x_db4 : db4 := match exec4 toy empty4 x_h4 with Ret (m, _) => m | Crash => empty4 end.
Definition x_g4 := x_run (apply_db4 toy) (fun _ _ => None) x_db4 (x_cmds78 x_d4).
Example x_deleted4 :
  reachable4 toy x_db4 /\ group_reached toy_sizes toy_hmac (apply_db4 toy) (fun _ _ => None) 2 x_group3 1 [] x_db4 (fst x_g4) (snd x_g4) /\
  gchanges_overlap x_group3 1 (fst x_g4) /\ gno_clash (snd x_g4) /\ psize (g_rolled db4 eff4 (snd x_g4)) = 0 /\
  host_told_done (snd x_g4) host_entry4 x_id78 delete_request (pid 1) x_d4 /\
  map fst (rows4 x_db4) = [x_id78] /\ map fst (rots4 x_db4) = [x_id78] /\
  map (fun kv => length (rows4 (c_db db4 (fst (snd kv))))) (g_now db4 eff4 (snd x_g4)) = [0; 0; 1]%nat.
Proof.
  split. { exists x_h4; eexists. split; [|vm_compute; reflexivity]. repeat constructor. }
  split; [refine (x_run_reached (apply_db4 toy) (fun _ _ => None) x_db4 (x_cmds78 x_d4) _); eexists; vm_compute; reflexivity|].
  split; [apply gfixed_b_changes; vm_compute; reflexivity|]. split; [apply gno_clash_b_sound; vm_compute; reflexivity|]. split; [vm_compute; reflexivity|].
  split. { split; [vm_compute; reflexivity|]. exists x_req78. split; [reflexivity|]. split; vm_compute; repeat first [left; reflexivity|right]. }
  split; [|split]; vm_compute; reflexivity.
Qed.

(* SVR3 reads the host's request as a query: it is answered "done", and the secret stays *)
Definition x_d3 := the (host_entry3 ex3_key x_id78 delete_request) [].
Definition x_h3 := [In3 true (Log3 x_id78 (Create3 3 (ex3_el 1)) ex3_key)].
Definition x_db3 : db3 := match exec3 toy_smul [] x_h3 with Ret (m, _) => m | Crash => [] end.
Definition x_g3 := x_run (apply_db3 toy_smul) (fun _ _ => None) x_db3 (x_cmds78 x_d3).
Theorem C78_deleted3_refuted : ~ forall sz hmac smul key respond min_voting M sm L0 db0 evs (g : group db3 resp3) k id d,
  reachable3 smul db0 -> group_reached sz hmac (apply_db3 smul) respond min_voting M sm L0 db0 evs g -> gchanges_overlap M sm evs -> gno_clash g ->
  psize (g_rolled db3 resp3 g) <= sm -> ~ In k (g_rolled db3 resp3 g) -> host_told_done g (host_entry3 key) id delete_request k d ->
  removed_by (apply_db3 smul) g k d (fun db => lookup id db = None) (makes3 id).
Proof.
  intros H. specialize (H toy_sizes toy_hmac toy_smul ex3_key (fun _ _ => None) 2 x_group3 1 [] x_db3 (fst x_g3) (snd x_g3) (pid 1) x_id78 x_d3).
  destruct H as (i & e0 & eff0 & Ht & _ & Hs & _).
  - exists x_h3; eexists. vm_compute. reflexivity.
  - refine (x_run_reached (apply_db3 toy_smul) (fun _ _ => None) x_db3 (x_cmds78 x_d3) _); eexists; vm_compute; reflexivity.
  - apply gfixed_b_changes; vm_compute; reflexivity.
  - apply gno_clash_b_sound; vm_compute; reflexivity.
  - vm_compute. discriminate.
  - vm_compute. tauto.
  - split; [vm_compute; reflexivity|]. exists x_req78. split; [reflexivity|]. split; vm_compute; repeat first [left; reflexivity|right].
  - pose (f := fun d => match parse_log3 d with Some (Log3 _ (Create3 _ _) _) => true | _ => false end).
    assert (Hn : x_none f 2 (snd x_g3) = true) by (vm_compute; reflexivity).
    destruct (x_state_sound 2 (fun db => match lookup x_id78 db with Some _ => true | None => false end) (snd x_g3)) as (k & s & A & Hw & Ha & Hl); [vm_compute; reflexivity|].
    destruct (x_none_sound f 2 _ _ _ _ _ Hn Ht) as [Hi _].
    assert (Hx : lookup x_id78 (c_db db3 s) = None).
    { apply (Hs k s A Hw); [eapply N.le_trans; [exact Hi|exact Ha]|]. intros k2 j e eff Ht2 _ _ (t & el & key & d & Hd & Hp). destruct (x_none_sound f 2 _ _ _ _ _ Hn Ht2) as [_ Hf].
      specialize (Hf d Hd). unfold f in Hf. rewrite Hp in Hf. discriminate. }
    unfold db3, db5 in Hx. rewrite Hx in Hl. discriminate.
Qed.
(* SVR5 reads it as an empty request, which is not even run *)
Definition x_d5 := the (host_entry5 x_id78 delete_request) [].
Definition x_h5 := [In5 true (Log5 x_id78 (Upload5 (repeat 9 32)))].
Definition x_db5 : db5 := match exec5 toy_hmac [] x_h5 with Ret (m, _) => m | Crash => [] end.
Definition x_g5 := x_run (apply_db5 toy_hmac) (fun _ _ => None) x_db5 (x_cmds78 x_d5).
Theorem C78_deleted5_refuted : ~ forall sz hmac hm respond min_voting M sm L0 db0 evs (g : group db5 resp5) k id d,
  reachable5 hm db0 -> group_reached sz hmac (apply_db5 hm) respond min_voting M sm L0 db0 evs g -> gchanges_overlap M sm evs -> gno_clash g ->
  psize (g_rolled db5 resp5 g) <= sm -> ~ In k (g_rolled db5 resp5 g) -> host_told_done g host_entry5 id delete_request k d ->
  removed_by (apply_db5 hm) g k d (fun db => lookup id db = None) (makes5 id).
Proof.
  intros H. specialize (H toy_sizes toy_hmac toy_hmac (fun _ _ => None) 2 x_group3 1 [] x_db5 (fst x_g5) (snd x_g5) (pid 1) x_id78 x_d5).
  destruct H as (i & e0 & eff0 & Ht & _ & Hs & _).
  - exists x_h5; eexists. vm_compute. reflexivity.
  - refine (x_run_reached (apply_db5 toy_hmac) (fun _ _ => None) x_db5 (x_cmds78 x_d5) _); eexists; vm_compute; reflexivity.
  - apply gfixed_b_changes; vm_compute; reflexivity.
  - apply gno_clash_b_sound; vm_compute; reflexivity.
  - vm_compute. discriminate.
  - vm_compute. tauto.
  - split; [vm_compute; reflexivity|]. exists x_req78. split; [reflexivity|]. split; vm_compute; repeat first [left; reflexivity|right].
  - pose (f := fun d => match parse_log5 d with Some (Log5 _ (Upload5 _)) => true | _ => false end).
    assert (Hn : x_none f 2 (snd x_g5) = true) by (vm_compute; reflexivity).
    destruct (x_state_sound 2 (fun db => match lookup x_id78 db with Some _ => true | None => false end) (snd x_g5)) as (k & s & A & Hw & Ha & Hl); [vm_compute; reflexivity|].
    destruct (x_none_sound f 2 _ _ _ _ _ Hn Ht) as [Hi _].
    assert (Hx : lookup x_id78 (c_db db5 s) = None).
    { apply (Hs k s A Hw); [eapply N.le_trans; [exact Hi|exact Ha]|]. intros k2 j e eff Ht2 _ _ (x & d & Hd & Hp). destruct (x_none_sound f 2 _ _ _ _ _ Hn Ht2) as [_ Hf].
      specialize (Hf d Hd). unfold f in Hf. rewrite Hp in Hf. discriminate. }
    unfold db3, db5 in Hx. rewrite Hx in Hl. discriminate.
Qed.

Print Assumptions C78_200_means_no_error.
Print Assumptions C78_deleted2_partial.
Print Assumptions C78_nothing_restored2_partial.
Print Assumptions C78_deleted4_partial.
Print Assumptions C78_never_deleted3.
Print Assumptions C78_never_deleted5.
Print Assumptions C78_deleted3_refuted.
Print Assumptions C78_deleted5_refuted.
