From Verif Require Import MerkleDB MerkleSpec DBHashProofs MerkleProofs MerkleTamper.
From Verif Require Import DB2Spec DB2Proofs DB2Rep DB3Spec DB3Proofs DB4Spec DB4Proofs DB5Spec DB5Proofs.

Section Gen.
Variable sip8 sip16 : bytes -> bytes.
Hypothesis sip8_len : forall x, length (sip8 x) = 8%nat.
Hypothesis sip16_len : forall x, length (sip16 x) = 16%nat.
Context {S L R : Type}.
Variable key : L -> bytes.
Variable hb : S -> bytes -> option (outcome bytes).
Variable apply : S -> bool -> L -> outcome (S * R).
Variable acts : S -> bool -> L -> list act.
Variable Inv : S -> Prop.

Definition adequate (s s' : S) (k : bytes) (l : list act) : Prop :=
  (forall k', k' <> k -> hb s' k' = hb s k') /\
  match hb s k, hb s' k with
  | None, None => l = []
  | None, Some _ => l = [ANew k; AUpdate k]
  | Some b, Some b' => l = [AUpdate k] \/ (l = [] /\ b = b')
  | Some _, None => l = [AErase k]
  end.
Hypothesis Hb : forall s k, Inv s -> hb s k <> Some Crash.
Hypothesis Hstep : forall s v l, Inv s -> exists s' r, apply s v l = Ret (s', r) /\ Inv s' /\
  adequate s s' (key l) (acts s v l).

Definition hash_of (s : S) (k : bytes) : option bytes :=
  match hb s k with Some (Ret b) => Some (rowhash sip16 b) | _ => None end.
Definition mirror (s : S) (t : tree) : Prop :=
  tree_ok sip8 t /\ tsized t /\ forall k, lookup k (leaves (root t)) = hash_of s k.

Lemma rowhash_len b : length (rowhash sip16 b) = 8%nat.
Proof. unfold rowhash. rewrite firstn_length, sip16_len. reflexivity. Qed.

Lemma mirror_verdict s t k : Inv s -> mirror s t -> verdict_of sip8 sip16 hb s t k = Ret true.
Proof.
  intros I [K [_ M]]. unfold verdict_of. destruct (hb s k) as [[b|]|] eqn:E; [| |reflexivity].
  - rewrite (verify_ok sip8 _ _ _ K), M. unfold hash_of. rewrite E, beq_refl. reflexivity.
  - now apply Hb in E.
Qed.

Lemma mirror_acts s s' t k l : Inv s -> Inv s' -> mirror s t -> adequate s s' k l ->
  exists t', acts_run sip8 sip16 hb s' l t = Ret t' /\ mirror s' t'.
Proof.
  intros I I' [K [Z M]] [O A].
  assert (IN : forall b, hb s k = Some (Ret b) -> In k (map fst (leaves (root t)))).
  { intros b E. eapply lookup_some_in. rewrite M. unfold hash_of. now rewrite E. }
  assert (UPD : forall x, hb s k = Some x -> forall b', hb s' k = Some (Ret b') ->
     exists t', update sip8 k (rowhash sip16 b') t = Ret t' /\ mirror s' t').
  { intros x E b' E'. destruct x as [b|]; [|now apply Hb in E].
    destruct (update_ok sip8 k (rowhash sip16 b') t K (IN b E)) as [t' [U [K' L']]].
    exists t'; split; [exact U|]. split; [exact K'|]. split; [exact (tsized_update sip8 sip8_len _ _ _ _ (rowhash_len b') Z U)|].
    intros k'. rewrite L', upd_lookup, M. destruct (beq_spec k' k) as [->|NE].
    - unfold hash_of. rewrite E, E'. reflexivity.
    - unfold hash_of. now rewrite O. }
  destruct (hb s k) as [x|] eqn:E, (hb s' k) as [x'|] eqn:E'.
  - destruct A as [->|[-> ->]].
    + destruct x' as [b'|]; [|now apply Hb in E']. destruct (UPD x eq_refl b' eq_refl) as [t' [U M']].
      exists t'. cbn [acts_run act_run]. rewrite E', U. auto.
    + exists t. split; [reflexivity|]. split; [auto|]. split; [auto|].
      intros k'. rewrite M. unfold hash_of. destruct (beq_spec k' k) as [->|NE]; [now rewrite E, E'|now rewrite O].
  - subst l. destruct x as [b|]; [|now apply Hb in E].
    destruct (remove_ok sip8 k t K (IN b eq_refl)) as [t' [U [K' L']]].
    exists t'. cbn [acts_run act_run]. rewrite U. split; [reflexivity|]. split; [auto|]. split; [exact (tsized_remove sip8 sip8_len _ _ _ Z U)|].
    intros k'. rewrite L', rem_lookup, M. destruct (beq_spec k' k) as [->|NE].
    + unfold hash_of. now rewrite E'.
    + unfold hash_of. now rewrite O.
  - subst l. destruct x' as [b'|]; [|now apply Hb in E'].
    assert (NI : ~ In k (map fst (leaves (root t)))).
    { intros X. apply lookup_in in X as [v X]. rewrite M in X. unfold hash_of in X. rewrite E in X. discriminate. }
    destruct (add_ok sip8 k (rowhash sip16 b') t K NI) as [t' [U [K' L']]].
    pose proof (tsized_step sip8 sip8_len t (MAdd k (rowhash sip16 b')) t' (rowhash_len b') Z U) as Z'.
    unfold add in U. cbn [acts_run act_run]. destruct (new_leaf k t) as [t1|] eqn:N; [|discriminate]. rewrite E', U.
    exists t'. split; [reflexivity|]. split; [auto|]. split; [auto|].
    intros k'. rewrite L', M. destruct (beq_spec k' k) as [->|NE].
    + unfold hash_of. now rewrite E'.
    + unfold hash_of. now rewrite O.
  - subst l. exists t. split; [reflexivity|]. split; [auto|]. split; [auto|].
    intros k'. rewrite M. unfold hash_of. destruct (beq_spec k' k) as [->|NE]; [now rewrite E, E'|now rewrite O].
Qed.

Lemma untampered s t ls : Inv s -> mirror s t ->
  exists s' t' rs, mdb_exec sip8 sip16 key hb apply acts (s, t) ls = Ret ((s', t'), rs) /\
    exec (fun s l => apply s true l) s ls = Ret (s', rs) /\ Inv s' /\ mirror s' t'.
Proof.
  revert s t; induction ls as [|l ls IH]; intros s t I M.
  - exists s, t, []. cbn. auto.
  - unfold mdb_exec. cbn [exec]. unfold mdb_step at 1.
    rewrite (mirror_verdict s t (key l) I M).
    destruct (Hstep s true l I) as [s1 [r [E [I1 A]]]]. rewrite E.
    destruct (mirror_acts s s1 t (key l) _ I I1 M A) as [t1 [-> M1]].
    destruct (IH s1 t1 I1 M1) as [s' [t' [rs [E1 [E2 X]]]]].
    exists s', t', (r :: rs). unfold mdb_exec in E1. rewrite E1, E2. auto.
Qed.

Lemma mirror_empty s : (forall k, hb s k = None) -> mirror s (empty_tree sip8).
Proof.
  intros E. split; [apply empty_ok|]. split; [now apply tsized_empty|].
  intros k. unfold hash_of. rewrite E. reflexivity.
Qed.

(* a verdict of OK on tampered memory: the row hashes to what the honest row does *)
Lemma tampered_verdict s t s' t' k b' : mirror s t -> tampered t t' ->
  hb s' k = Some (Ret b') -> verdict_of sip8 sip16 hb s' t' k = Ret true ->
  hb s k = Some (Ret b') \/ collision sip8 \/ collision (rowhash sip16).
Proof.
  intros [K [Z M]] T E V. unfold verdict_of in V. rewrite E in V.
  destruct (verify sip8 k (rowhash sip16 b') t') as [[| |]|] eqn:VE; try discriminate.
  destruct (tamper_verify sip8 t t' k _ K Z T VE) as [H|H]; [|auto].
  rewrite M in H. unfold hash_of in H. destruct (hb s k) as [[b|]|] eqn:Es; try discriminate.
  injection H as H. destruct (bytes_dec b b') as [->|NE]; [auto|].
  right; right. exists b, b'. auto.
Qed.
End Gen.

Ltac adq := unfold adequate; split;
  [ intros ? ?; rewrite ?lookup_put_other, ?lookup_del_other by assumption; reflexivity | ].

(* --- DB2 --- *)
Lemma hb2_ok s k : wf_db s -> hb2 s k <> Some Crash.
Proof.
  intros [So W]. unfold hb2. destruct (lookup k s) as [r|] eqn:E; [|discriminate].
  destruct (W k r E) as [Wr _]. destruct (wf_row_data _ Wr) as (L & D & _).
  unfold hashrow_bytes2. destruct (Nat.ltb_spec (length (r_data r)) (N.to_nat (r_dsize r))); [lia|discriminate].
Qed.
Lemma acts2_adequate m v l : wf_db m ->
  exists m' r, apply2 m (In2 v l) = Ret (m', r) /\ wf_db m' /\ adequate hb2 m m' (l_id l) (acts2 m v l).
Proof.
  intros W. destruct (apply2_refines m (In2 v l) W) as (m' & r & E & W' & _).
  exists m', r. split; [exact E|]. split; [exact W'|].
  assert (SM : sorted m) by apply W.
  unfold apply2 in E. cbn [i_log i_vok] in E. unfold acts2.
  destruct (validate2 l) eqn:V;
    try (injection E as <- <-; unfold adequate; split; [auto|]; destruct (hb2 m (l_id l)); auto).
  unfold run2 in E. rewrite V in E.
  assert (SAME : forall l', l' = [] -> adequate hb2 m m (l_id l) l').
  { intros l' ->. split; [auto|]. destruct (hb2 m (l_id l)); auto. }
  destruct (l_req l) as [data pin mt|pin|data| | |] eqn:RQ; cbn iota in E |- *.
  - unfold backup2 in E. destruct (copy_into _ data); [|discriminate]. destruct (copy_into _ pin); [|discriminate].
    injection E as <- <-. unfold hb2 at 1, adequate. split.
    { intros k' NE. unfold hb2. now rewrite lookup_put_other. }
    unfold hb2. rewrite lookup_put_same. destruct (lookup (l_id l) m); auto.
  - unfold restore2 in E. destruct (lookup (l_id l) m) as [row|] eqn:LK; [|injection E as <- <-; auto].
    destruct (negb (r_state row =? AVAILABLE)); [injection E as <- <-; auto|].
    destruct (negb v); [injection E as <- <-; auto|].
    destruct (ct_equals pin (r_pin row)) as [[|]|]; [| |discriminate].
    + destruct (Nat.ltb _ _); [discriminate|]. injection E as <- <-; auto.
    + destruct ((r_tries row + 255) mod 256 =? 0).
      * injection E as <- <-. unfold adequate, hb2. split.
        { intros k' NE. now rewrite lookup_del_other. }
        rewrite LK, lookup_del_same by exact SM. reflexivity.
      * injection E as <- <-. unfold adequate, hb2. split.
        { intros k' NE. now rewrite lookup_put_other. }
        rewrite LK, lookup_put_same. auto.
  - unfold expose2 in E. destruct (lookup (l_id l) m) as [row|] eqn:LK; [|injection E as <- <-; auto].
    destruct (negb v); [injection E as <- <-; auto|].
    destruct (ct_equals_prefix _ data _) as [[|]|]; [| |discriminate]; [|injection E as <- <-; auto].
    destruct ((r_state row =? POPULATED) || (r_state row =? AVAILABLE))%bool; [|injection E as <- <-; auto].
    injection E as <- <-. unfold adequate, hb2. split.
    { intros k' NE. now rewrite lookup_put_other. }
    rewrite LK, lookup_put_same. auto.
  - unfold delete2 in E. destruct (lookup (l_id l) m) as [row|] eqn:LK; [|injection E as <- <-; auto].
    injection E as <- <-. unfold adequate, hb2. split.
    { intros k' NE. now rewrite lookup_del_other. }
    rewrite LK, lookup_del_same by exact SM. reflexivity.
  - unfold tries2 in E. destruct (lookup (l_id l) m); injection E as <- <-; auto.
  - injection E as <- <-. auto.
Qed.

(* --- DB3 --- *)
Lemma hb3_ok s k : hb3 s k <> Some Crash.
Proof. unfold hb3. destruct (lookup k s); discriminate. Qed.
Ltac same_db hb := injection 1 as <- <-; unfold adequate; split; [auto|]; destruct (hb _ _); auto.
Ltac upd_db LK := injection 1 as <- <-; unfold adequate; split;
  [intros k' NE; cbn; rewrite ?lookup_put_other, ?lookup_del_other by exact NE; reflexivity|];
  cbn; rewrite ?LK, ?lookup_put_same, ?lookup_del_same by auto; auto.
Lemma acts3_adequate smul m v l : wf_db3 m ->
  exists m' r, apply3 smul m (In3 v l) = Ret (m', r) /\ wf_db3 m' /\ adequate hb3 m m' (l3_id l) (acts3 smul m v l).
Proof.
  intros W. destruct (apply3_refines smul m (In3 v l) W) as (m' & r & E & W' & _).
  exists m', r. split; [exact E|]. split; [exact W'|].
  assert (SM : sorted m) by apply W. clear W W'. revert E.
  unfold apply3, acts3. cbn [i3_log i3_vok].
  destruct (validate3 l) eqn:V; try same_db hb3.
  unfold run3. rewrite V. unfold validate3 in V.
  destruct (Nat.eqb (length (l3_id l)) ID_SIZE3) eqn:LI; [|discriminate]. cbn [negb] in V.
  unfold to_array. rewrite LI.
  destruct (l3_req l) as [mt e|e| | |] eqn:RQ; [| | | |discriminate].
  - destruct ((mt <? 1) || (255 <? mt))%bool; [discriminate|].
    destruct (Nat.eqb (length e) ELEMENT_SIZE) eqn:LE; [|discriminate]. cbn [negb] in V.
    destruct (Nat.eqb (length (l3_priv l)) SCALAR_SIZE) eqn:LP; [|discriminate].
    unfold create3, to_array. rewrite LE, LP.
    destruct (smul (l3_priv l) e); [|same_db hb3].
    destruct (lookup (l3_id l) m) eqn:LK; unfold hb3; upd_db LK.
  - destruct (Nat.eqb (length e) ELEMENT_SIZE) eqn:LE; [|discriminate].
    unfold evaluate3, to_array. rewrite LE.
    destruct (lookup (l3_id l) m) as [row|] eqn:LK; [|same_db hb3].
    destruct (negb v); [same_db hb3|].
    destruct (smul (r3_priv row) e); [|same_db hb3].
    destruct ((r3_tries row + 255) mod 256 =? 0); unfold hb3; upd_db LK.
  - unfold remove3. destruct (lookup (l3_id l) m) eqn:LK; [|same_db hb3]. unfold hb3; upd_db LK.
  - unfold query3. destruct (lookup (l3_id l) m) eqn:LK; same_db hb3.
Qed.

(* --- DB5 --- *)
Lemma hb5_ok s k : hb5 s k <> Some Crash.
Proof. unfold hb5. destruct (lookup k s); discriminate. Qed.
Lemma acts5_adequate hmac m v l : wf_db5 m ->
  exists m' r, apply5 hmac m (In5 v l) = Ret (m', r) /\ wf_db5 m' /\ adequate hb5 m m' (l5_id l) (acts5 m v l).
Proof.
  intros W. destruct (apply5_refines hmac m (In5 v l) W) as (m' & r & E & W' & _).
  exists m', r. split; [exact E|]. split; [exact W'|].
  assert (SM : sorted m) by apply W. clear W W'. revert E.
  unfold apply5, acts5. cbn [i5_log i5_vok].
  destruct (validate5 l) eqn:V; try same_db hb5.
  unfold run5. rewrite V. unfold validate5 in V.
  destruct (Nat.eqb (length (l5_id l)) ID_SIZE5) eqn:LI; [|discriminate]. cbn [negb] in V |- *.
  destruct (l5_req l) as [d|p| |] eqn:RQ; [| | |discriminate].
  - unfold upload5. destruct (copy_into _ d); [|discriminate].
    destruct (lookup (l5_id l) m) eqn:LK; unfold hb5; upd_db LK.
  - unfold download5. destruct (lookup (l5_id l) m) eqn:LK; [|same_db hb5]. destruct (negb v); same_db hb5.
  - unfold purge5. destruct (lookup (l5_id l) m) eqn:LK; [|same_db hb5]. unfold hb5; upd_db LK.
Qed.

(* --- DB4 --- *)
Lemma hb4_ok s k : hb4 s k <> Some Crash.
Proof. unfold hb4. destruct (lookup k (rows4 s)); discriminate. Qed.
Lemma acts4_adequate c m v l : wf_db4 m ->
  exists m' r, apply4 c m (In4 v l) = Ret (m', r) /\ wf_db4 m' /\ adequate hb4 m m' (l4_id l) (acts4 m v l c).
Proof.
  intros W. destruct (apply4_refines c m (In4 v l) W) as (m' & r & E & W' & _).
  exists m', r. split; [exact E|]. split; [exact W'|].
  assert (SM : sorted (rows4 m)) by apply W. assert (SR : sorted (rots4 m)) by apply W. clear W W'. revert E.
  unfold apply4, acts4. cbn [i4_log i4_vok].
  destruct (validate4 c l) eqn:V; try same_db hb4.
  unfold run4. rewrite V. unfold validate4 in V.
  destruct (Nat.eqb (length (l4_id l)) ID_SIZE4) eqn:LI; [|discriminate]. cbn [negb] in V |- *.
  unfold arr_from at 1. rewrite LI.
  destruct (l4_req l) as [mt oprf auth enc zero ver|b|ap az ver| | |ver od ed|ver|ver|] eqn:RQ; try discriminate.
  - unfold create4.
    destruct (lookup (l4_id l) (rows4 m)) as [row|] eqn:LK.
    + destruct (pt_from c auth), (sc_from c oprf), (sc_from c zero), (arr_from KEY_SIZE4 enc); try discriminate.
      unfold hb4; upd_db LK.
    + destruct (mt =? 0); [same_db hb4|].
      destruct (pt_from c auth), (sc_from c oprf), (sc_from c zero), (arr_from KEY_SIZE4 enc); try discriminate.
      unfold hb4; upd_db LK.
  - unfold restore1_4.
    destruct (lookup (l4_id l) (rows4 m)) as [row|] eqn:LK; [|same_db hb4].
    destruct (negb v); [same_db hb4|]. cbv zeta.
    destruct ((r4_tries row + 255) mod 256 =? 0).
    + destruct (lookup (l4_id l) (rots4 m)); unfold hb4; upd_db LK.
    + unfold hb4; upd_db LK.
  - unfold remove4. destruct (lookup (l4_id l) (rows4 m)) eqn:LK; [|same_db hb4]. unfold hb4; upd_db LK.
  - unfold query4. destruct (lookup (l4_id l) (rows4 m)) eqn:LK; same_db hb4.
  - unfold rotate_start4. destruct (lookup (l4_id l) (rows4 m)) as [row|] eqn:LK; [|same_db hb4].
    destruct (lookup (l4_id l) (rots4 m)) eqn:LR; [same_db hb4|].
    destruct (ver =? r4_version row); [same_db hb4|].
    destruct (sc_from c od), (arr_from KEY_SIZE4 ed); try discriminate.
    destruct (negb v); [same_db hb4|]. unfold hb4; upd_db LK.
  - unfold rotate_commit4. destruct (lookup (l4_id l) (rows4 m)) as [row|] eqn:LK; [|same_db hb4].
    destruct (lookup (l4_id l) (rots4 m)) as [rr|] eqn:LR; [|same_db hb4].
    destruct (negb (rr_version rr =? ver)); [same_db hb4|].
    destruct (negb v); [same_db hb4|]. unfold hb4; upd_db LK.
  - unfold rotate_rollback4. destruct (lookup (l4_id l) (rows4 m)) as [row|] eqn:LK; [|same_db hb4].
    destruct (lookup (l4_id l) (rots4 m)) as [rr|] eqn:LR; [|same_db hb4].
    destruct (negb (rr_version rr =? ver)); [same_db hb4|].
    destruct (negb v); [same_db hb4|]. unfold hb4; upd_db LK.
Qed.
