From Verif Require Import MerkleDB MerkleSpec DBHashProofs MerkleProofs MerkleTamper MerkleDBProofs UtilProofs.
From Verif Require Import DB2Spec DB2Proofs DB2Rep DB3Spec DB3Proofs DB4Spec DB4Proofs DB4Transfer DB5Spec DB5Proofs.

(* what the C++ types of a row guarantee, whatever is written over it *)
Definition typed_row2 (r : row2) : Prop :=
  r_state r < 2 ^ 32 /\ r_tries r < 256 /\ r_dsize r < 256 /\ length (r_data r) = 48%nat /\ length (r_pin r) = 32%nat.

Lemma wf_typed2 r : wf_row r -> typed_row2 r.
Proof.
  intros W. destruct (wf_row_data _ W) as (L & D & _). destruct W as (S & T & Z & _ & P).
  unfold typed_row2. assert (2 ^ 32 = 4294967296) by reflexivity.
  destruct S as [-> | ->]; unfold POPULATED, AVAILABLE; repeat split; auto; lia.
Qed.
Lemma hashrow2_inj k r1 r2 b : typed_row2 r1 -> typed_row2 r2 ->
  hashrow_bytes2 k r1 = Ret b -> hashrow_bytes2 k r2 = Ret b ->
  r_state r1 = r_state r2 /\ r_tries r1 = r_tries r2 /\ r_dsize r1 = r_dsize r2 /\ r_pin r1 = r_pin r2 /\
  firstn (N.to_nat (r_dsize r1)) (r_data r1) = firstn (N.to_nat (r_dsize r2)) (r_data r2) /\
  (N.to_nat (r_dsize r1) <= 48)%nat.
Proof.
  intros (S1 & T1 & Z1 & D1 & P1) (S2 & T2 & Z2 & D2 & P2). unfold hashrow_bytes2.
  destruct (Nat.ltb_spec (length (r_data r1)) (N.to_nat (r_dsize r1))) as [|H1]; [discriminate|].
  destruct (Nat.ltb_spec (length (r_data r2)) (N.to_nat (r_dsize r2))) as [|H2]; [discriminate|].
  intros E1 E2. rewrite <- E2 in E1. clear E2.
  match type of E1 with Ret ?a = Ret ?b => assert (E : a = b) by congruence end. clear E1.
  assert (P32 : 2 ^ 32 = 4294967296) by reflexivity.
  apply app_inv_head in E.
  apply app_len_inj in E as [Ea E]; [|reflexivity].
  apply app_len_inj in E as [Eb E]; [|reflexivity].
  apply app_len_inj in E as [Ec E]; [|reflexivity].
  apply be32_inj in Ea; [|lia|lia]. apply be32_inj in Eb; [|lia|lia]. apply be32_inj in Ec; [|lia|lia].
  rewrite Ec in *. unfold MAX_DATA_SIZE in E. rewrite <- !app_assoc in E.
  apply app_len_inj in E as [Ed E]; [|rewrite !firstn_length; lia].
  apply app_inv_head in E. rewrite D1 in H1. auto 10.
Qed.

Section T.
Variable sip8 sip16 : bytes -> bytes.
Hypothesis sip8_len : forall x, length (sip8 x) = 8%nat.
Hypothesis sip16_len : forall x, length (sip16 x) = 16%nat.
Let coll := collision sip8 \/ collision (rowhash sip16).

Lemma run_mirror2 ls m t rs :
  mdb2_exec sip8 sip16 ([], empty_tree sip8) ls = Ret ((m, t), rs) ->
  wf_db m /\ mirror sip8 sip16 hb2 m t.
Proof.
  intros E.
  destruct (untampered sip8 sip16 sip8_len sip16_len l_id hb2 (fun m v l => apply2 m (In2 v l)) acts2 wf_db
              hb2_ok acts2_adequate [] (empty_tree sip8) ls wf_nil) as (s' & t' & rs' & E1 & E2 & W & M).
  { apply mirror_empty; auto. }
  pose proof (eq_trans (eq_sym E1) E) as EE. injection EE as -> -> ->. auto.
Qed.

Lemma tampered_row2 ls m t rs m' t' id r' :
  mdb2_exec sip8 sip16 ([], empty_tree sip8) ls = Ret ((m, t), rs) ->
  tampered t t' -> lookup id m' = Some r' -> typed_row2 r' ->
  verdict_of sip8 sip16 hb2 m' t' id = Ret true ->
  coll \/ exists r, lookup id m = Some r /\
    r_state r = r_state r' /\ r_tries r = r_tries r' /\ r_dsize r = r_dsize r' /\ r_pin r = r_pin r' /\
    firstn (N.to_nat (r_dsize r)) (r_data r) = firstn (N.to_nat (r_dsize r')) (r_data r') /\
    (N.to_nat (r_dsize r) <= 48)%nat /\ length (r_data r) = 48%nat /\
    verdict_of sip8 sip16 hb2 m t id = Ret true.
Proof.
  intros E T LK TY V. destruct (run_mirror2 _ _ _ _ E) as [W M].
  unfold verdict_of in V. unfold hb2 in V. rewrite LK in V.
  destruct (hashrow_bytes2 id r') as [b'|] eqn:H'; [|discriminate].
  destruct (tampered_verdict sip8 sip16 hb2 m t m' t' id b' M T) as [H|H]; [| |right|left; exact H].
  - unfold hb2. now rewrite LK, H'.
  - unfold verdict_of, hb2. now rewrite LK, H'.
  - unfold hb2 in H. destruct (lookup id m) as [r|] eqn:LR; [|discriminate]. injection H as H.
    exists r. split; [reflexivity|].
    assert (TR : typed_row2 r) by (apply wf_typed2, (proj2 W id r LR)).
    destruct (hashrow2_inj id r r' b' TR TY H H') as (A1 & A2 & A3 & A4 & A5 & A6).
    do 6 (split; [auto|]). split; [apply TR|]. exact (mirror_verdict sip8 sip16 hb2 wf_db hb2_ok m t id W M).
Qed.

Lemma restore_truthful2 ls m t rs m' t' id pin st' s d k :
  mdb2_exec sip8 sip16 ([], empty_tree sip8) ls = Ret ((m, t), rs) ->
  tampered t t' -> (forall r', lookup id m' = Some r' -> typed_row2 r') ->
  mdb2_step sip8 sip16 (m', t') (Log2 id (Restore pin)) = Ret (st', Some (RspRestore s d k)) ->
  s = RS_OK \/ s = RS_PIN_MISMATCH ->
  (exists st, mdb2_step sip8 sip16 (m, t) (Log2 id (Restore pin)) = Ret (st, Some (RspRestore s d k))) \/ coll.
Proof.
  intros E T TY H Hs. unfold mdb2_step, mdb_step in H.
  change (l_id (Log2 id (Restore pin))) with id in H.
  destruct (verdict_of sip8 sip16 hb2 m' t' id) as [v'|] eqn:V; [|discriminate].
  destruct (apply2 m' (In2 v' (Log2 id (Restore pin)))) as [[m1 rsp]|] eqn:A; [|discriminate].
  destruct (acts_run _ _ _ _ _ _); [|discriminate]. injection H as <- H. subst rsp.
  unfold apply2 in A. cbn [i_log i_vok] in A.
  destruct (validate2 (Log2 id (Restore pin))) eqn:VA; try discriminate.
  unfold run2 in A. rewrite VA in A. cbn [l_req l_id] in A.
  destruct (restore2 v' m' id pin) as [[m2 rsp]|] eqn:RE; [|discriminate]. injection A as _ ->.
  unfold restore2 in RE. destruct (lookup id m') as [r'|] eqn:LK.
  2:{ injection RE as _ <- _ _. destruct Hs; discriminate. }
  destruct (r_state r' =? AVAILABLE) eqn:SA; cbn [negb] in RE.
  2:{ injection RE as _ <- _ _. destruct Hs; discriminate. }
  destruct v'; cbn [negb] in RE.
  2:{ injection RE as _ <- _ _. destruct Hs; discriminate. }
  destruct (tampered_row2 _ _ _ _ _ _ _ _ E T LK (TY _ eq_refl) V)
    as [C|(r & LR & A1 & A2 & A3 & A4 & A5 & A6 & A7 & A8)]; [auto|left].
  destruct (run_mirror2 _ _ _ _ E) as [W M].
  destruct (apply2_refines m (In2 true (Log2 id (Restore pin))) W) as (m3 & rsp3 & E3 & W3 & _).
  destruct (acts2_adequate m true (Log2 id (Restore pin)) W) as (m4 & rsp4 & E4 & W4 & AD).
  rewrite E3 in E4. injection E4 as <- <-.
  destruct (mirror_acts sip8 sip16 sip8_len sip16_len hb2 wf_db hb2_ok m m3 t id _ W W3 M AD) as (t3 & AR & _).
  exists (m3, t3). unfold mdb2_step, mdb_step. change (l_id (Log2 id (Restore pin))) with id.
  rewrite A8, E3, AR. f_equal. f_equal.
  unfold apply2 in E3. cbn [i_log i_vok] in E3. rewrite VA in E3. unfold run2 in E3. rewrite VA in E3.
  cbn [l_req l_id] in E3. unfold restore2 in E3. rewrite LR, A1, SA, A2, A4, A7 in E3. cbn [negb] in E3.
  destruct (ct_equals pin (r_pin r')) as [[|]|]; [| |discriminate].
  - destruct (Nat.ltb_spec (length (r_data r')) (N.to_nat (r_dsize r'))); [discriminate|].
    destruct (Nat.ltb_spec 48 (N.to_nat (r_dsize r))); [lia|].
    rewrite A5 in E3. congruence.
  - destruct ((r_tries r' + 255) mod 256 =? 0); [|congruence].
    injection RE as _ <- _ _. destruct Hs; discriminate.
Qed.

(* --- DB3 --- *)
Definition typed_row3 (r : row3) : Prop := r3_tries r < 256 /\ length (r3_priv r) = 32%nat.
Lemma tampered_row3 smul ls m t rs m' t' id r' :
  mdb3_exec smul sip8 sip16 ([], empty_tree sip8) ls = Ret ((m, t), rs) ->
  tampered t t' -> lookup id m' = Some r' -> typed_row3 r' ->
  verdict_of sip8 sip16 hb3 m' t' id = Ret true ->
  lookup id m = Some r' \/ coll.
Proof.
  intros E T LK (TY1 & TY2) V.
  destruct (untampered sip8 sip16 sip8_len sip16_len l3_id hb3 (fun m v l => apply3 smul m (In3 v l)) (acts3 smul) wf_db3
              (fun s k _ => hb3_ok s k) (acts3_adequate smul) [] (empty_tree sip8) ls wf_nil3) as (s' & u & rs' & E1 & E2 & W & M).
  { apply mirror_empty; auto. }
  pose proof (eq_trans (eq_sym E1) E) as EE. injection EE as -> -> ->.
  destruct (tampered_verdict sip8 sip16 hb3 m t m' t' id (hashrow_bytes3 id r') M T) as [H|H]; auto.
  - unfold hb3. now rewrite LK.
  - left. unfold hb3 in H. destruct (lookup id m) as [r|] eqn:LR; [|discriminate]. injection H as H.
    destruct (proj2 W id r LR) as [[W1 W2] W3]. unfold hashrow_bytes3 in H.
    apply app_inv_head in H. apply app_len_inj in H as [Ea Eb]; [|reflexivity].
    assert (P32 : 2 ^ 32 = 4294967296) by reflexivity. apply be32_inj in Ea; [|lia|lia].
    destruct r, r'; cbn in *; congruence.
Qed.

Lemma evaluate_truthful3 smul ls m t rs m' t' id e p st' ev n :
  mdb3_exec smul sip8 sip16 ([], empty_tree sip8) ls = Ret ((m, t), rs) ->
  tampered t t' -> (forall r', lookup id m' = Some r' -> typed_row3 r') ->
  mdb3_step smul sip8 sip16 (m', t') (Log3 id (Evaluate3 e) p) = Ret (st', Some (RspEvaluate3 S3_OK ev n)) ->
  (exists st, mdb3_step smul sip8 sip16 (m, t) (Log3 id (Evaluate3 e) p) = Ret (st, Some (RspEvaluate3 S3_OK ev n))) \/ coll.
Proof.
  intros E T TY H. unfold mdb3_step, mdb_step in H.
  change (l3_id (Log3 id (Evaluate3 e) p)) with id in H.
  destruct (verdict_of sip8 sip16 hb3 m' t' id) as [v'|] eqn:V; [|discriminate].
  destruct (apply3 smul m' (In3 v' (Log3 id (Evaluate3 e) p))) as [[m1 rsp]|] eqn:A; [|discriminate].
  destruct (acts_run _ _ _ _ _ _); [|discriminate]. injection H as <- H. subst rsp.
  unfold apply3 in A. cbn [i3_log i3_vok] in A.
  destruct (validate3 (Log3 id (Evaluate3 e) p)) eqn:VA; try discriminate.
  unfold run3 in A. rewrite VA in A. cbn [l3_req l3_id] in A.
  destruct (to_array ID_SIZE3 id) as [id2|] eqn:TA; [|discriminate].
  assert (id2 = id) as ->. { unfold to_array in TA. destruct (Nat.eqb _ _); congruence. }
  unfold evaluate3 in A.
  destruct (to_array ELEMENT_SIZE e) as [elt|] eqn:TE; [|discriminate].
  destruct (lookup id m') as [r'|] eqn:LK; [|discriminate].
  destruct v'; cbn [negb] in A; [|discriminate].
  destruct (tampered_row3 smul _ _ _ _ _ _ _ _ E T LK (TY _ eq_refl) V) as [LR|C]; [left|auto].
  destruct (untampered sip8 sip16 sip8_len sip16_len l3_id hb3 (fun m v l => apply3 smul m (In3 v l)) (acts3 smul) wf_db3
              (fun s k _ => hb3_ok s k) (acts3_adequate smul) [] (empty_tree sip8) ls wf_nil3) as (s' & u & rs' & E1 & E2 & W & M).
  { apply mirror_empty; auto. }
  pose proof (eq_trans (eq_sym E1) E) as EE. injection EE as -> -> ->.
  destruct (acts3_adequate smul m true (Log3 id (Evaluate3 e) p) W) as (m4 & rsp4 & E4 & W4 & AD).
  destruct (mirror_acts sip8 sip16 sip8_len sip16_len hb3 wf_db3 (fun s k _ => hb3_ok s k) m m4 t id _ W W4 M AD) as (t3 & AR & _).
  exists (m4, t3). unfold mdb3_step, mdb_step. change (l3_id (Log3 id (Evaluate3 e) p)) with id.
  rewrite (mirror_verdict sip8 sip16 hb3 wf_db3 (fun s k _ => hb3_ok s k) m t id W M), E4, AR. f_equal. f_equal.
  unfold apply3 in E4. cbn [i3_log i3_vok] in E4. rewrite VA in E4. unfold run3 in E4. rewrite VA in E4.
  cbn [l3_req l3_id] in E4. rewrite TA in E4. unfold evaluate3 in E4. rewrite TE, LR in E4. cbn [negb] in E4.
  destruct (smul (r3_priv r') elt); [|discriminate]. congruence.
Qed.

(* --- DB5 --- *)
Lemma tampered_row5 hmac ls m t rs m' t' id d' :
  mdb5_exec hmac sip8 sip16 ([], empty_tree sip8) ls = Ret ((m, t), rs) ->
  tampered t t' -> lookup id m' = Some d' ->
  verdict_of sip8 sip16 hb5 m' t' id = Ret true ->
  lookup id m = Some d' \/ coll.
Proof.
  intros E T LK V.
  destruct (untampered sip8 sip16 sip8_len sip16_len l5_id hb5 (fun m v l => apply5 hmac m (In5 v l)) acts5 wf_db5
              (fun s k _ => hb5_ok s k) (acts5_adequate hmac) [] (empty_tree sip8) ls wf_nil5) as (s' & u & rs' & E1 & E2 & W & M).
  { apply mirror_empty; auto. }
  pose proof (eq_trans (eq_sym E1) E) as EE. injection EE as -> -> ->.
  destruct (tampered_verdict sip8 sip16 hb5 m t m' t' id (hashrow_bytes5 id d') M T) as [H|H]; auto.
  - unfold hb5. now rewrite LK.
  - left. unfold hb5 in H. destruct (lookup id m) as [r|] eqn:LR; [|discriminate]. injection H as H.
    unfold hashrow_bytes5 in H. apply app_inv_head in H. congruence.
Qed.

Lemma download_truthful5 hmac ls m t rs m' t' id p st' d :
  mdb5_exec hmac sip8 sip16 ([], empty_tree sip8) ls = Ret ((m, t), rs) ->
  tampered t t' ->
  mdb5_step hmac sip8 sip16 (m', t') (Log5 id (Download5 p)) = Ret (st', Some (RspDownload5 S5_OK d)) ->
  (exists st, mdb5_step hmac sip8 sip16 (m, t) (Log5 id (Download5 p)) = Ret (st, Some (RspDownload5 S5_OK d))) \/ coll.
Proof.
  intros E T H. unfold mdb5_step, mdb_step in H.
  change (l5_id (Log5 id (Download5 p))) with id in H.
  destruct (verdict_of sip8 sip16 hb5 m' t' id) as [v'|] eqn:V; [|discriminate].
  destruct (apply5 hmac m' (In5 v' (Log5 id (Download5 p)))) as [[m1 rsp]|] eqn:A; [|discriminate].
  destruct (acts_run _ _ _ _ _ _); [|discriminate]. injection H as <- H. subst rsp.
  unfold apply5 in A. cbn [i5_log i5_vok] in A.
  destruct (validate5 (Log5 id (Download5 p))) eqn:VA; try discriminate.
  unfold run5 in A. rewrite VA in A. cbn [l5_req l5_id] in A.
  destruct (negb (length id =? ID_SIZE5)%nat) eqn:TA; [discriminate|].
  unfold download5 in A.
  destruct (lookup id m') as [r'|] eqn:LK; [|discriminate].
  destruct v'; cbn [negb] in A; [|discriminate].
  destruct (tampered_row5 hmac _ _ _ _ _ _ _ _ E T LK V) as [LR|C]; [left|auto].
  destruct (untampered sip8 sip16 sip8_len sip16_len l5_id hb5 (fun m v l => apply5 hmac m (In5 v l)) acts5 wf_db5
              (fun s k _ => hb5_ok s k) (acts5_adequate hmac) [] (empty_tree sip8) ls wf_nil5) as (s' & u & rs' & E1 & E2 & W & M).
  { apply mirror_empty; auto. }
  pose proof (eq_trans (eq_sym E1) E) as EE. injection EE as -> -> ->.
  destruct (acts5_adequate hmac m true (Log5 id (Download5 p)) W) as (m4 & rsp4 & E4 & W4 & AD).
  destruct (mirror_acts sip8 sip16 sip8_len sip16_len hb5 wf_db5 (fun s k _ => hb5_ok s k) m m4 t id _ W W4 M AD) as (t3 & AR & _).
  exists (m4, t3). unfold mdb5_step, mdb_step. change (l5_id (Log5 id (Download5 p))) with id.
  rewrite (mirror_verdict sip8 sip16 hb5 wf_db5 (fun s k _ => hb5_ok s k) m t id W M), E4, AR. f_equal. f_equal.
  unfold apply5 in E4. cbn [i5_log i5_vok] in E4. rewrite VA in E4. unfold run5 in E4. rewrite VA in E4.
  cbn [l5_req l5_id] in E4. rewrite TA in E4. unfold download5 in E4. rewrite LR in E4. cbn [negb] in E4.
  congruence.
Qed.

(* --- DB4 --- *)
Definition typed_row4 (r : row4) : Prop :=
  length (r4_auth r) = 32%nat /\ length (r4_oprf r) = 32%nat /\ length (r4_enc r) = 32%nat /\
  length (r4_zero r) = 32%nat /\ r4_version r < 2 ^ 32 /\ r4_tries r < 256.
Definition typed_rrow4 (r : rrow4) : Prop :=
  length (rr_oprf r) = 32%nat /\ length (rr_enc r) = 32%nat /\ rr_version r < 2 ^ 32.
(* the same account, except that "no rotation" and "an all-zero rotation" are
   not told apart *)
Definition same_acct4 (a b : row4 * option rrow4) : Prop :=
  fst a = fst b /\
  match snd a, snd b with
  | Some x, Some y => x = y
  | None, None => True
  | None, Some y | Some y, None => y = RRow4 0 (zeros 32) (zeros 32)
  end.
Lemma hashrow4_same k r1 o1 r2 o2 :
  typed_row4 r1 -> typed_row4 r2 ->
  (forall x, o1 = Some x -> typed_rrow4 x) -> (forall x, o2 = Some x -> typed_rrow4 x) ->
  hashrow_bytes4 k (r1, o1) = hashrow_bytes4 k (r2, o2) -> same_acct4 (r1, o1) (r2, o2).
Proof.
  intros (A1 & A2 & A3 & A4 & A5 & A6) (B1 & B2 & B3 & B4 & B5 & B6) Ao Bo E.
  unfold hashrow_bytes4 in E. apply app_inv_head in E.
  apply app_len_inj in E as [E1 E]; [|congruence].
  apply app_len_inj in E as [E2 E]; [|congruence].
  apply app_len_inj in E as [E3 E]; [|congruence].
  apply app_len_inj in E as [E4 E]; [|congruence].
  apply app_len_inj in E as [E5 E]; [|reflexivity].
  apply app_len_inj in E as [E6 E]; [|reflexivity].
  apply be32_inj in E6; [|lia|lia]. injection E5 as E5.
  split; cbn [fst snd]; [destruct r1, r2; cbn in *; congruence|].
  assert (Z : zeros (4 + 32 + 32) = be32 0 ++ zeros 32 ++ zeros 32) by reflexivity.
  assert (P32 : 2 ^ 32 = 4294967296) by reflexivity.
  destruct o1 as [q1|], o2 as [q2|]; auto.
  - destruct (Ao _ eq_refl) as (a1 & a2 & a3), (Bo _ eq_refl) as (b1 & b2 & b3).
    apply app_len_inj in E as [F1 E]; [|reflexivity]. apply app_len_inj in E as [F2 F3]; [|congruence].
    apply be32_inj in F1; [|lia|lia]. destruct q1, q2; cbn in *; congruence.
  - destruct (Ao _ eq_refl) as (a1 & a2 & a3). rewrite Z in E.
    apply app_len_inj in E as [F1 E]; [|reflexivity]. apply app_len_inj in E as [F2 F3]; [|now rewrite a1].
    apply be32_inj in F1; [|lia|lia]. destruct q1; cbn in *; congruence.
  - destruct (Bo _ eq_refl) as (a1 & a2 & a3). rewrite Z in E.
    apply app_len_inj in E as [F1 E]; [|reflexivity]. apply app_len_inj in E as [F2 F3]; [|now rewrite a1].
    apply be32_inj in F1; [|lia|lia]. destruct q2; cbn in *; congruence.
Qed.

Lemma tampered_row4 c ls m t rs m' t' id r' o' :
  add_closed c -> Forall (fun l => typed4 (In4 true l) = true) ls ->
  mdb4_exec c sip8 sip16 (empty4, empty_tree sip8) ls = Ret ((m, t), rs) ->
  tampered t t' -> account4 id m' = Some (r', o') ->
  typed_row4 r' -> (forall x, o' = Some x -> typed_rrow4 x) ->
  verdict_of sip8 sip16 hb4 m' t' id = Ret true ->
  (exists a, account4 id m = Some a /\ same_acct4 a (r', o')) \/ coll.
Proof.
  intros HA FT E T LK TY TYo V.
  destruct (untampered sip8 sip16 sip8_len sip16_len l4_id hb4 (fun m v l => apply4 c m (In4 v l)) (fun m v l => acts4 m v l c) wf_db4
              (fun s k _ => hb4_ok s k) (acts4_adequate c) empty4 (empty_tree sip8) ls wf_nil4) as (s' & u & rs' & E1 & E2 & W & M).
  { apply mirror_empty; auto. }
  pose proof (eq_trans (eq_sym E1) E) as EE. injection EE as -> -> ->.
  assert (RC : reachable4 c m).
  { exists (map (In4 true) ls), rs. split.
    - rewrite Forall_forall in *. intros x I. apply in_map_iff in I as (l & <- & I). auto.
    - clear - E2. revert E2. generalize empty4 as s. revert rs m. induction ls as [|l ls IH]; intros rs m s E; cbn in *; [auto|].
      destruct (apply4 c s (In4 true l)) as [[s1 r1]|]; [|discriminate].
      destruct (exec (fun s0 l0 => apply4 c s0 (In4 true l0)) s1 ls) as [[s2 r2]|] eqn:E1; [|discriminate].
      apply IH in E1. unfold exec4 in *. cbn [exec]. rewrite E1. exact E. }
  destruct (reachable_good c m HA RC) as [_ G]. specialize (G id).
  unfold account4 in LK. destruct (lookup id (rows4 m')) as [r1|] eqn:L1; [|discriminate]. injection LK as -> LO.
  destruct (tampered_verdict sip8 sip16 hb4 m t m' t' id (hashrow_bytes4 id (r', o')) M T) as [H|H]; auto.
  - unfold hb4. now rewrite L1, LO.
  - left. unfold hb4 in H. unfold account4 in G |- *. destruct (lookup id (rows4 m)) as [r|] eqn:LR; [|discriminate].
    injection H as H. eexists; split; [reflexivity|].
    cbn [good_acct] in G. destruct G as (G0 & (G1 & G2 & G3 & G4 & G5 & G6) & Go).
    apply (pt_len c) in G1. apply (sc_len c) in G2, G3.
    apply (hashrow4_same id); auto.
    + repeat split; auto; lia.
    + intros x Ex. rewrite Ex in Go. destruct Go as (R1 & R2 & R3). apply (sc_len c) in R1. repeat split; auto; lia.
Qed.
End T.
