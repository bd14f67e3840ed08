From Verif Require Import DB2 DB2Spec DB2Proofs WireProofs TransferProofs DBHashProofs UtilProofs.

(* ---- C12 ---- *)
Lemma parse_ser_row2 p :
  blen (p_id p) < 2 ^ 64 -> blen (p_data p) < 2 ^ 64 -> blen (p_pin p) < 2 ^ 64 ->
  p_tries p < 2 ^ 32 -> p_state p < 2 ^ 32 -> parse_row2 (ser_row2 p) = Some p.
Proof.
  intros H1 H2 H3 H4 H5. unfold parse_row2, ser_row2.
  assert (P : 2 ^ 32 < 2 ^ 64) by reflexivity. assert (P2 : 1 < 2 ^ 29 /\ 5 < 2 ^ 29) by (split; reflexivity).
  rewrite parse_ser by (repeat (apply Forall_app; split); (apply ob_ok || apply ov_ok); lia).
  wire_get. destruct p as [i t d pn st]; cbn [p_id p_tries p_data p_pin p_state] in *.
  f_equal. f_equal; try (destruct i; reflexivity); try (destruct d; reflexivity); try (destruct pn; reflexivity).
  - destruct (N.eqb_spec t 0); [now subst|]. now apply N.mod_small.
  - destruct (N.eqb_spec st 0); [now subst|]. now apply N.mod_small.
Qed.

Lemma row_proto2_wf k r : wf_row r ->
  row_proto2 k r = PRow2 k (r_tries r) (firstn (N.to_nat (r_dsize r)) (r_data r)) (r_pin r) (r_state r).
Proof.
  intros W; destruct (wf_row_data _ W) as (L & D & _).
  unfold row_proto2. rewrite L. replace (N.to_nat (r_dsize r) - 48)%nat with 0%nat by lia.
  cbn [zeros repeat]; now rewrite app_nil_r.
Qed.


Lemma parse_row_of_db k r : wf_row r -> length k = 16%nat ->
  parse_row2 (ser_row2 (row_proto2 k r)) = Some (row_proto2 k r).
Proof.
  intros W Hk; destruct (wf_row_data _ W) as (L & D & Fl & _).
  rewrite row_proto2_wf by exact W.
  destruct W as (Hs & Ht & Hd & _ & Hp).
  assert (P64 : 2^64 = 18446744073709551616) by reflexivity.
  assert (P32 : 2^32 = 4294967296) by reflexivity.
  apply parse_ser_row2; cbn [p_id p_tries p_data p_pin p_state]; unfold blen;
    rewrite ?Hk, ?Hp, ?Fl; try lia.
  destruct Hs as [-> | ->]; reflexivity.
Qed.


Lemma load_row2_ok m s :
  (exists m' id, load_row2 m s = (m', E_OK, id)) <->
  exists p, parse_row2 s = Some p /\ row_msg_ok p = true /\
            (forall k, last_key m = Some k -> blt k (p_id p) = true).
Proof.
  unfold load_row2, row_msg_ok, MAX_TRIES, PIN_SIZE, MIN_DATA_SIZE, MAX_DATA_SIZE, BACKUP_ID_SIZE.
  destruct (parse_row2 s) as [p|]; [|split; [intros (? & ? & ?); discriminate|intros (? & ? & _); discriminate]].
  split.
  - intros (m' & id & H). exists p. split; [reflexivity|].
    destruct ((255 <? p_tries p) || (p_tries p =? 0) || negb (length (p_pin p) =? 32)%nat
       || (length (p_data p) <? 16)%nat || (48 <? length (p_data p))%nat)%bool eqn:E1; [discriminate|].
    destruct (length (p_id p) =? 16)%nat eqn:E2; cbn [negb] in H; [|discriminate].
    split; [lia|]. intros k Hk; rewrite Hk in H.
    destruct (ble (p_id p) k) eqn:E3; [discriminate|].
    rewrite ble_nblt in E3. now destruct (blt k (p_id p)).
  - intros (p' & E & H1 & H2). injection E as <-.
    destruct ((255 <? p_tries p) || (p_tries p =? 0) || negb (length (p_pin p) =? 32)%nat
       || (length (p_data p) <? 16)%nat || (48 <? length (p_data p))%nat)%bool eqn:E1; [lia|].
    destruct (length (p_id p) =? 16)%nat eqn:E2; cbn [negb]; [|lia].
    rewrite !copy_into_ok by (rewrite zeros_length; lia).
    destruct (last_key m) as [k|]; [|eauto].
    specialize (H2 k eq_refl). rewrite ble_nblt, H2. cbn; eauto.
Qed.

Lemma load_row2_res m s m' id : sorted m -> load_row2 m s = (m', E_OK, id) ->
  exists p, parse_row2 s = Some p /\ row_msg_ok p = true /\ id = p_id p /\
    (forall k v, In (k, v) m -> blt k (p_id p) = true) /\
    m' = m ++ [(p_id p, row_of_msg p)].
Proof.
  intros S H. assert (HE : exists m' id, load_row2 m s = (m', E_OK, id)) by eauto.
  apply load_row2_ok in HE as (p & EP & H1 & H2). exists p. split; [exact EP|]. split; [exact H1|].
  assert (HB : forall k v, In (k, v) m -> blt k (p_id p) = true).
  { intros k v Hin. destruct (last_key m) as [lk|] eqn:EL.
    - specialize (H2 lk eq_refl). destruct (last_key_max _ _ S EL k v Hin) as [->|Hlt]; [exact H2|].
      eapply blt_trans; eauto.
    - apply last_key_none in EL; subst m; contradiction. }
  revert H; unfold load_row2; rewrite EP.
  unfold row_msg_ok in H1.
  destruct ((MAX_TRIES <? p_tries p) || _ || _ || _ || _)%bool; [discriminate|].
  destruct (negb _); [discriminate|].
  destruct (match last_key m with Some _ => _ | None => _ end); [discriminate|].
  unfold MAX_DATA_SIZE, PIN_SIZE. rewrite !copy_into_ok by (rewrite zeros_length; lia).
  rewrite !skipn_zeros. set (dd := p_data p ++ _). set (pp := p_pin p ++ _).
  intros H; injection H as <- <-. split; [reflexivity|]. split; [exact HB|].
  rewrite put_above_last by exact HB.
  match goal with |- _ ++ [(_, ?r)] = _ => assert (ER : r = row_of_msg p) end; [|now rewrite ER].
  subst dd pp. unfold row_of_msg, blen.
  replace (32 - length (p_pin p))%nat with 0%nat by lia. cbn [zeros repeat]; rewrite app_nil_r.
  rewrite !N.mod_small by lia. reflexivity.
Qed.

Lemma row_of_row_proto k r : wf_row r -> row_of_msg (row_proto2 k r) = r.
Proof.
  intros W; destruct (wf_row_data _ W) as (L & D & Fl & P).
  rewrite row_proto2_wf by exact W. unfold row_of_msg, blen; cbn [p_state p_tries p_data p_pin].
  rewrite Fl, <- P, N2Nat.id. destruct r; reflexivity.
Qed.

Lemma row_proto_msg_ok k r : wf_row r -> length k = 16%nat -> row_msg_ok (row_proto2 k r) = true.
Proof.
  intros W Hk; destruct (wf_row_data _ W) as (L & D & Fl & P).
  rewrite row_proto2_wf by exact W. destruct W as (_ & Ht & Hd & _ & Hp).
  unfold row_msg_ok; cbn [p_id p_state p_tries p_data p_pin]. rewrite Fl, Hk, Hp. lia.
Qed.

Lemma transfer2_lossless m sizes : wf_db m ->
  Forall (fun n => (0 < n)%nat) sizes -> (length m <= total sizes)%nat ->
  transfer (rows_as_protos2 m) load_rows2 [] [] sizes = Ret (m, E_OK).
Proof.
  intros [S W] HF Hle.
  assert (W' : forall k v, In (k, v) m -> wf_row v /\ length k = 16%nat)
    by (intros; apply W; now apply in_lookup).
  destruct (transfer_ok m (fun id r => ser_row2 (row_proto2 id r)) (fun d pre => d = pre) true
     (@length _) load_row2 S (fun k v H => proj2 (W' k v H))) with (dst := @nil (bytes * row2)) (sizes := sizes)
     as (d & E & HR); auto.
  2:{ rewrite HR in E; exact E. }
  intros dst pre k v post -> Em.
  assert (Hin : In (k, v) m) by (rewrite Em; apply in_or_app; right; now left).
  destruct (W' _ _ Hin) as [Wv Hk].
  assert (Sp : sorted pre) by (rewrite Em in S; apply sorted_app in S; tauto).
  assert (HE : exists m' id, load_row2 pre (ser_row2 (row_proto2 k v)) = (m', E_OK, id)).
  { apply load_row2_ok. exists (row_proto2 k v). split; [now apply parse_row_of_db|].
    split; [now apply row_proto_msg_ok|]. rewrite row_proto2_wf by exact Wv; cbn [p_id].
    intros k0 Hl. apply last_key_in in Hl as [v0 Hv0].
    rewrite Em in S; apply sorted_app in S as (_ & _ & HA). specialize (HA k0 v0 Hv0). cbn in HA; tauto. }
  destruct HE as (m' & id & HE). exists m'.
  destruct (load_row2_res _ _ _ _ Sp HE) as (p & EP & _ & Eid & _ & Em').
  rewrite parse_row_of_db in EP by auto. injection EP as <-.
  rewrite row_of_row_proto in Em' by auto. rewrite row_proto2_wf in Em', Eid by exact Wv; cbn [p_id] in *.
  subst m' id. split; [exact HE|]. split; [reflexivity|]. rewrite app_length; cbn; lia.
Qed.

(* what a successful load means *)
Lemma accepted2 m rows m' : sorted m -> accepted load_row2 m rows m' ->
  sorted m' /\ exists ps, map parse_row2 rows = map Some ps /\ forallb row_msg_ok ps = true /\
    m' = m ++ map (fun p => (p_id p, row_of_msg p)) ps.
Proof.
  intros S H; induction H as [s|s r s1 id rows s2 E H IH].
  - split; [exact S|]. exists []; cbn; rewrite app_nil_r; auto.
  - destruct (load_row2_res _ _ _ _ S E) as (p & EP & HP & _ & HB & ->).
    assert (S1 : sorted (s ++ [(p_id p, row_of_msg p)])).
    { apply sorted_app; split; [exact S|]. split; [cbn; auto|]. intros k v Hin; cbn; split; auto. eapply HB; eauto. }
    destruct (IH S1) as (S2 & ps & E1 & E2 & E3). split; [exact S2|].
    exists (p :: ps); cbn. rewrite EP, E1, HP, E2. split; [reflexivity|]. split; [reflexivity|].
    rewrite E3, <- app_assoc; reflexivity.
Qed.

(* ---- C15 ---- *)
Lemma row_size k r : wf_row r -> length k = 16%nat ->
  length (ser_row2 (row_proto2 k r)) =
    (18 + (if (r_tries r <? 128)%N then 2 else 3) + (2 + N.to_nat (r_dsize r)) + 34 + 2)%nat.
Proof.
  intros W Hk. destruct (wf_row_data _ W) as (L & D & Fl & _).
  rewrite row_proto2_wf by exact W. destruct W as (Hs & Ht & Hd & _ & Hp).
  unfold ser_row2; cbn [p_id p_tries p_data p_pin p_state]. rewrite !ser_msg_app, !app_length.
  rewrite !ser_ob_length by (try lia; rewrite ?Hk, ?Hp, ?Fl; lia).
  rewrite (ser_ov_length1 5) by (try lia; destruct Hs as [-> | ->]; unfold POPULATED, AVAILABLE; lia).
  rewrite Hk, Hp, Fl. destruct (N.ltb_spec (r_tries r) 128).
  - rewrite ser_ov_length1 by lia. lia.
  - rewrite ser_ov_length2 by lia. lia.
Qed.

(* ---- C13 ---- *)
Definition hash_in (kv : bytes * row2) : bytes :=
  fst kv ++ be32 (r_state (snd kv)) ++ be32 (r_tries (snd kv)) ++ be32 (r_dsize (snd kv))
  ++ r_data (snd kv) ++ r_pin (snd kv).

Lemma hash_inputs2_ok m : (forall k v, In (k, v) m -> wf_row v) ->
  hash_inputs2 m = Ret (map hash_in m).
Proof.
  induction m as [|[k r] m IH]; intros W; [reflexivity|]; cbn [hash_inputs2 map].
  rewrite IH by (intros; eapply W; right; eauto).
  assert (Wr : wf_row r) by (eapply W; left; eauto).
  destruct (wf_row_data _ Wr) as (L & D & Fl & P).
  unfold hashrow_bytes2. destruct (Nat.ltb_spec (length (r_data r)) (N.to_nat (r_dsize r))); [lia|].
  unfold hash_in; cbn [fst snd]. unfold MAX_DATA_SIZE. rewrite <- P. reflexivity.
Qed.

Lemma hash_in_inj m1 m2 :
  (forall k v, In (k, v) m1 -> wf_row v /\ length k = 16%nat) ->
  (forall k v, In (k, v) m2 -> wf_row v /\ length k = 16%nat) ->
  map hash_in m1 = map hash_in m2 -> m1 = m2.
Proof.
  revert m2; induction m1 as [|[k1 r1] m1 IH]; intros [|[k2 r2] m2] W1 W2 E; try discriminate; auto.
  cbn [map] in E.
  assert (E1 := f_equal (hd []) E). assert (E2 := f_equal (@tl _) E). cbn [hd tl] in E1, E2. clear E.
  destruct (W1 k1 r1 (or_introl eq_refl)) as [R1 L1], (W2 k2 r2 (or_introl eq_refl)) as [R2 L2].
  destruct (wf_row_data _ R1) as (D1 & _), (wf_row_data _ R2) as (D2 & _).
  destruct R1 as (S1 & T1 & Z1 & _ & P1), R2 as (S2 & T2 & Z2 & _ & P2).
  unfold hash_in in E1; cbn [fst snd] in E1.
  apply app_len_inj in E1 as [-> E1]; [|congruence].
  apply app_len_inj in E1 as [Ea E1]; [|reflexivity].
  apply app_len_inj in E1 as [Eb E1]; [|reflexivity].
  apply app_len_inj in E1 as [Ec E1]; [|reflexivity].
  apply app_len_inj in E1 as [Ed Ee]; [|congruence].
  apply be32_inj in Ea; [|destruct S1 as [-> | ->]; reflexivity|destruct S2 as [-> | ->]; reflexivity].
  assert (P32 : 2 ^ 32 = 4294967296) by reflexivity.
  apply be32_inj in Eb; [|lia|lia]. apply be32_inj in Ec; [|lia|lia].
  f_equal; [destruct r1, r2; cbn in *; congruence|].
  apply IH; auto; intros; [eapply W1|eapply W2]; right; eauto.
Qed.

Lemma hash2_defined sip16 sha256 m : wf_db m ->
  hash2 sip16 sha256 m = Ret (db_hash sip16 sha256 (map hash_in m)).
Proof.
  intros [S W]. unfold hash2. rewrite hash_inputs2_ok; [reflexivity|].
  intros k v Hin; apply (W k v), in_lookup; auto.
Qed.

Lemma hash2_collision sip16 sha256 m1 m2 : (forall x, length (sip16 x) = 16%nat) ->
  wf_db m1 -> wf_db m2 ->
  hash2 sip16 sha256 m1 = hash2 sip16 sha256 m2 ->
  m1 = m2 \/ collision sip16 \/ collision sha256.
Proof.
  intros HL W1 W2 E. rewrite !hash2_defined in E by assumption.
  assert (E' : db_hash sip16 sha256 (map hash_in m1) = db_hash sip16 sha256 (map hash_in m2)) by congruence.
  destruct (db_hash_inj _ _ _ _ HL E') as [Em|]; [|auto].
  left. destruct W1 as [S1 W1], W2 as [S2 W2].
  apply hash_in_inj; auto; intros; [apply W1|apply W2]; now apply in_lookup.
Qed.

Lemma reachable_wf m : reachable2 m -> wf_db m.
Proof.
  intros (h & rs & E). destruct (exec2_ok h [] wf_nil) as (m' & rs' & E' & W). congruence.
Qed.

Lemma tries_seen_of m id : wf_db m -> length id = 16%nat -> tries_seen m id = tries_of m id.
Proof.
  intros W Hid. unfold tries_seen, tries_of.
  destruct (apply2 m (In2 true (Log2 id Tries))) as [[m' r]|] eqn:E.
  - apply acct_of_ext_apply2 in E as [E _]; [|exact W]. change (key2 _) with id in E.
    unfold acct_step in E; cbn [i_log l_req] in E. unfold legal in E; cbn [l_id l_req] in E.
    rewrite Hid in E; cbn in E. destruct (acct_of id m); injection E as E1 E2; subst r; reflexivity.
  - destruct (apply2_refines m (In2 true (Log2 id Tries)) W) as (? & ? & E' & _); congruence.
Qed.

Lemma tries_step_seen m i m' r id : reachable2 m -> apply2 m i = Ret (m', r) ->
  length id = 16%nat -> is_backup id i = false ->
  match tries_seen m id, tries_seen m' id with
  | Some t, Some t' => t' = t \/
      (t' = t - 1 /\ 2 <= t /\ exists g, l_req (i_log i) = Restore g /\
                     r = Some (RspRestore RS_PIN_MISMATCH [] t'))
  | Some t, None => is_delete id i = true \/ (t = 1 /\ exists g, l_req (i_log i) = Restore g)
  | None, o => o = None
  end.
Proof.
  intros HR E Hid Hb. apply reachable_wf in HR.
  rewrite (tries_seen_of m), (tries_seen_of m') by (eauto using apply2_wf).
  now apply tries_step.
Qed.

Lemma wrong_guess_costs_one m v id g m' t :
  reachable2 m -> apply2 m (In2 v (Log2 id (Restore g))) = Ret (m', Some (RspRestore RS_PIN_MISMATCH [] t)) ->
  tries_seen m id = Some (t + 1) /\ tries_seen m' id = Some t /\ 1 <= t.
Proof.
  intros HR E. apply reachable_wf in HR. pose proof (apply2_wf _ _ _ _ HR E) as W'.
  pose proof (acct_of_ext_apply2 _ _ _ _ HR E) as [A _]. change (key2 _) with id in A.
  unfold acct_step in A; cbn [i_log i_vok l_req] in A.
  destruct (legal (Log2 id (Restore g))) eqn:EL; [|discriminate].
  assert (Hid : length id = 16%nat) by (unfold legal in EL; cbn [l_id] in EL; lia).
  rewrite (tries_seen_of m), (tries_seen_of m') by assumption. unfold tries_of.
  destruct (acct_of id m) as [|d p k e] eqn:EA; [discriminate|].
  assert (HK : 1 <= k).
  { unfold acct_of in EA. destruct (lookup id m) as [row|] eqn:EL2; [|discriminate].
    destruct HR as [_ W]; destruct (W _ _ EL2) as [(_ & Ht & _) _].
    unfold acct_of_row in EA; injection EA as _ _ <- _; lia. }
  destruct e; [|discriminate]. destruct v; [|discriminate]; cbn [negb] in A.
  destruct (beq g p); [discriminate|]. destruct (N.eqb_spec k 1); [discriminate|].
  injection A as A1 A2; rewrite <- A1. split; [f_equal; lia|]. split; [f_equal; lia|lia].
Qed.

Lemma no_crash2 m v l : reachable2 m -> validate2 l = E_OK -> run2 m v l <> Crash.
Proof.
  intros HR HV HC. apply reachable_wf in HR.
  destruct (apply2_refines m (In2 v l) HR) as (m' & r & E & _).
  unfold apply2 in E; cbn [i_log i_vok] in E. rewrite HV, HC in E; discriminate.
Qed.

Lemma load_only_good m rows m' last : reachable2 m -> load_rows2 m rows = Ret (m', last, E_OK) ->
  exists ps, map parse_row2 rows = map Some ps /\ forallb row_msg_ok ps = true /\
    m' = m ++ map (fun p => (p_id p, row_of_msg p)) ps /\ sorted m'.
Proof.
  intros HR H. apply load_accepted in H as [H _]. apply reachable_wf in HR as [S _].
  destruct (accepted2 _ _ _ S H) as (S' & ps & E1 & E2 & E3). exists ps; auto.
Qed.

Lemma reachable_nil : reachable2 [].
Proof. exists [], []; reflexivity. Qed.

Lemma reachable_step m i m' r : reachable2 m -> apply2 m i = Ret (m', r) -> reachable2 m'.
Proof.
  intros (h & rs & E) H. exists (h ++ [i]), (rs ++ [r]).
  unfold exec2 in *. rewrite exec_app, E. cbn. rewrite H. reflexivity.
Qed.
