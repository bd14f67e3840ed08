From Verif Require Import DB4 DB4Spec DB4Proofs Keyed UtilProofs WireProofs TransferProofs DBHashProofs.

(* --- maps --- *)
Lemma lookup_above {V} s k (m : smap V) : sorted m -> lookup k (above s m) = if blt s k then lookup k m else None.
Proof.
  intros S. destruct (above_split s m S) as (lo & E & Hlo & Hab).
  destruct (blt s k) eqn:B.
  - rewrite E at 2. clear E. induction lo as [|[k1 v1] lo IH]; [reflexivity|]. cbn.
    destruct (beq_spec k k1) as [->|]; [rewrite (Hlo k1 v1) in B by (now left); discriminate|].
    apply IH. intros; eapply Hlo; right; eauto.
  - destruct (lookup k (above s m)) eqn:L; [|reflexivity].
    apply lookup_in in L. rewrite all_above_iff in Hab. rewrite (Hab _ _ L) in B; discriminate.
Qed.
Lemma sorted_above {V} s (m : smap V) : sorted m -> sorted (above s m).
Proof.
  intros S. destruct (above_split s m S) as (lo & E & _). rewrite E in S. apply sorted_app in S; tauto.
Qed.
Lemma above_map {V W} (f : bytes -> V -> W) s (m : smap V) :
  above s (map (fun kv => (fst kv, f (fst kv) (snd kv))) m) = map (fun kv => (fst kv, f (fst kv) (snd kv))) (above s m).
Proof. induction m as [|[k v] m IH]; [reflexivity|]. cbn. destruct (blt s k); [reflexivity|exact IH]. Qed.
Lemma sorted_map {V W} (f : bytes -> V -> W) (m : smap V) :
  sorted m -> sorted (map (fun kv => (fst kv, f (fst kv) (snd kv))) m).
Proof.
  induction m as [|[k v] m IH]; [auto|]. cbn. intros [A S]; split; [|auto].
  apply all_above_iff. intros k' v' Hin. apply in_map_iff in Hin as ([k2 v2] & E & Hin). cbn in E.
  injection E as <- _. exact (proj1 (all_above_iff k m) A k2 v2 Hin).
Qed.
Lemma in_map_kv {V W} (f : bytes -> V -> W) (m : smap V) k w :
  In (k, w) (map (fun kv => (fst kv, f (fst kv) (snd kv))) m) -> exists v, In (k, v) m /\ w = f k v.
Proof. intros H. apply in_map_iff in H as ([k2 v2] & E & Hin). cbn in E. injection E as <- <-. eauto. Qed.

(* --- the rows with their rotation rows --- *)
Definition joined (m : db4) : smap (row4 * option rrow4) :=
  map (fun kv => (fst kv, (snd kv, lookup (fst kv) (rots4 m)))) (rows4 m).

Lemma walk_joined rows : forall rots, sorted rows -> sorted rots ->
  (forall k, lookup k rows = None -> lookup k rots = None) ->
  walk4 rows rots = (map (fun kv => (fst kv, (snd kv, lookup (fst kv) rots))) rows, []).
Proof.
  induction rows as [|[k r] rows IH]; intros rots S1 S2 HD.
  - cbn. destruct rots as [|[k' rr] rots]; [reflexivity|]. specialize (HD k' eq_refl). cbn in HD.
    rewrite beq_refl in HD; discriminate.
  - destruct S1 as [A1 S1]. cbn [walk4 map fst snd].
    assert (HN : forall k', lookup k' rows = None -> k' <> k -> lookup k' rots = None).
    { intros k' Hn Hne. apply HD. cbn. destruct (beq_spec k' k); [contradiction|auto]. }
    destruct rots as [|[k' rr] rots].
    + rewrite IH; auto; cbn; auto.
    + destruct S2 as [A2 S2]. destruct (beq_spec k' k) as [->|Hne].
      * rewrite IH; auto.
        -- cbn [lookup]. rewrite beq_refl. do 2 f_equal. apply map_ext_in. intros [k2 r2] Hin. cbn [fst snd].
           rewrite all_above_iff in A1. specialize (A1 _ _ Hin).
           destruct (beq_spec k2 k) as [->|]; [rewrite blt_irrefl in A1; discriminate|reflexivity].
        -- intros k2 Hn. destruct (beq_spec k2 k) as [->|Hne]; [now apply all_above_lookup|].
           specialize (HN k2 Hn Hne). cbn in HN. destruct (beq_spec k2 k); [contradiction|auto].
      * assert (Hk : blt k k' = true).
        { assert (L : lookup k' rows <> None).
          { intros Hn. specialize (HN k' Hn Hne). cbn in HN. rewrite beq_refl in HN; discriminate. }
          destruct (lookup k' rows) as [r'|] eqn:E; [|congruence]. rewrite all_above_iff in A1.
          eapply A1. eapply lookup_in; eauto. }
        assert (A3 : all_above k ((k', rr) :: rots)).
        { cbn; split; [exact Hk|]. eapply all_above_trans; eauto. }
        rewrite IH; [|auto|split; auto|].
        -- rewrite (all_above_lookup k _ A3). reflexivity.
        -- intros k2 Hn. destruct (beq_spec k2 k) as [->|Hne2]; [now apply all_above_lookup|auto].
Qed.

Lemma walk4_eq m : wf_db4 m -> walk4 (rows4 m) (rots4 m) = (joined m, []).
Proof. intros (S1 & S2 & HD & _). now apply walk_joined. Qed.

Lemma walk4_above m s : wf_db4 m -> fst (walk4 (above s (rows4 m)) (above s (rots4 m))) = above s (joined m).
Proof.
  intros (S1 & S2 & HD & _). rewrite walk_joined; auto using sorted_above.
  - unfold joined. cbn [fst]. rewrite (above_map (fun k r => (r, lookup k (rots4 m)))).
    apply map_ext_in. intros [k r] Hin. cbn [fst snd]. rewrite lookup_above by auto.
    destruct (above_split s _ S1) as (lo & _ & _ & Hab). rewrite all_above_iff in Hab. now rewrite (Hab _ _ Hin).
  - intros k. rewrite !lookup_above by auto. destruct (blt s k); auto.
Qed.

(* the database that holds these rows *)
Definition unjoin (l : smap (row4 * option rrow4)) : db4 :=
  DB4 (map (fun kv => (fst kv, fst (snd kv))) l)
      (flat_map (fun kv => match snd (snd kv) with Some rr => [(fst kv, rr)] | None => [] end) l).

Lemma unjoin_lookup l k : sorted l -> lookup k (rots4 (unjoin l)) = match lookup k l with Some (_, o) => o | None => None end.
Proof.
  induction l as [|[k1 [r o]] l IH]; [reflexivity|]. cbn. intros [A S]. specialize (IH S). cbn in IH.
  assert (HN : lookup k1 l = None) by now apply all_above_lookup.
  destruct o as [rr|]; cbn.
  - destruct (beq_spec k k1) as [->|]; [reflexivity|auto].
  - destruct (beq_spec k k1) as [->|]; [rewrite HN in IH; auto|auto].
Qed.
Lemma unjoin_sorted l : sorted l -> sorted (rows4 (unjoin l)) /\ sorted (rots4 (unjoin l)).
Proof.
  intros S. split; [apply (sorted_map (fun _ x => fst x)); exact S|].
  cbn. induction l as [|[k1 [r o]] l IH]; [exact I|]. cbn. destruct S as [A S].
  destruct o as [rr|]; cbn; auto. split; auto. apply all_above_iff. intros k' v' Hin.
  apply in_flat_map in Hin as ([k2 [r2 o2]] & Hin & H2). cbn in H2.
  destruct o2; [|contradiction]. destruct H2 as [H2|[]]. injection H2 as <- _.
  exact (proj1 (all_above_iff k1 l) A k2 _ Hin).
Qed.
Lemma joined_sorted m : sorted (rows4 m) -> sorted (joined m).
Proof. apply (sorted_map (fun k r => (r, lookup k (rots4 m)))). Qed.
Lemma lookup_joined m k : lookup k (joined m) = match lookup k (rows4 m) with Some r => Some (r, lookup k (rots4 m)) | None => None end.
Proof.
  unfold joined. induction (rows4 m) as [|[k1 r] l IH]; [reflexivity|]. cbn.
  destruct (beq_spec k k1) as [->|]; auto.
Qed.
Lemma unjoin_joined m : wf_db4 m -> unjoin (joined m) = m.
Proof.
  intros (S1 & S2 & HD & _). assert (SJ := joined_sorted m S1).
  assert (E1 : rows4 (unjoin (joined m)) = rows4 m).
  { unfold joined; cbn. rewrite map_map. cbn. rewrite <- (map_id (rows4 m)) at 2. apply map_ext. now intros []. }
  assert (E2 : rots4 (unjoin (joined m)) = rots4 m).
  { apply smap_ext; [now apply unjoin_sorted|exact S2|]. intros k. rewrite unjoin_lookup, lookup_joined by auto.
    destruct (lookup k (rows4 m)) eqn:E; [reflexivity|]. symmetry; auto. }
  destruct (unjoin (joined m)) as [a' b'], m as [a b]. cbn [rows4 rots4] in *. congruence.
Qed.

Section Transfer4.
Variable c : crypto4.
(* adding two scalars gives a scalar *)
Definition add_closed : Prop :=
  forall a b, is_scalar c a = true -> is_scalar c b = true -> is_scalar c (sc_add c a b) = true.
Notation exec4 := (exec4 c). Notation acct_step4 := (acct_step4 c). Notation legal4 := (legal4 c).

Definition good_row (r : row4) : Prop :=
  is_point c (r4_auth r) = true /\ is_scalar c (r4_oprf r) = true /\ is_scalar c (r4_zero r) = true /\
  length (r4_enc r) = 32%nat /\ 1 <= r4_version r < 2 ^ 32 /\ 1 <= r4_tries r <= 255.
Definition good_rot (rr : rrow4) : Prop :=
  is_scalar c (rr_oprf rr) = true /\ length (rr_enc rr) = 32%nat /\ 1 <= rr_version rr < 2 ^ 32.
Definition good_acct (id : bytes) (a : acct4) : Prop :=
  match a with
  | None => True
  | Some (r, o) => length id = 16%nat /\ good_row r /\ match o with Some rr => good_rot rr | None => True end
  end.

Lemma xor32_len a b : length a = 32%nat -> length b = 32%nat -> length (xor32 a b) = 32%nat.
Proof. intros H1 H2. unfold xor32. now rewrite map_length, combine_length, H1, H2. Qed.

Lemma good_step id i a : add_closed -> for_id4 id i = true -> typed4 i = true -> good_acct id a ->
  good_acct id (fst (acct_step4 a i)).
Proof.
  intros Hadd Hf HT HG. apply beq_eq in Hf. unfold DB4Spec.acct_step4.
  destruct (legal4 (i4_log i)) eqn:L; [|exact HG]. unfold DB4Spec.legal4 in L. rewrite Hf in L. unfold typed4 in HT.
  assert (P32 : 2 ^ 32 = 4294967296) by reflexivity.
  apply andb_true_iff in L as [Lid L].
  destruct (l4_req (i4_log i)) as [t o au e z v|b|ap az v| | |v od ed|v|v|].
  - assert (G : forall t', 1 <= t' <= 255 -> good_acct id (Some (Row4 au o e z v t', None))).
    { intros t' Ht. cbn. repeat rewrite andb_true_iff in L. unfold good_row; cbn. repeat split; try tauto; lia. }
    destruct a as [[r o']|]; cbn [fst].
    + apply G. destruct HG as (_ & G1 & _). destruct (N.eqb_spec t 0); [apply G1|]. lia.
    + destruct (N.eqb_spec t 0); cbn [fst]; [exact I|]. apply G. lia.
  - destruct a as [[r o']|]; cbn [fst]; [|exact I]. destruct (i4_vok i); cbn [fst]; [|exact HG].
    destruct (N.eqb_spec (r4_tries r) 1); [exact I|]. destruct HG as (G0 & (? & ? & ? & ? & ? & ?) & G2).
    cbn. split; [exact G0|]. split; [|exact G2]. unfold good_row; cbn. repeat split; auto; lia.
  - exact HG.
  - exact I.
  - destruct a as [[r o']|]; exact HG.
  - destruct a as [[r [rr|]]|]; cbn [fst]; auto. destruct (v =? _); cbn [fst]; auto. destruct (i4_vok i); cbn [fst]; auto.
    destruct HG as (G0 & G1 & _). cbn. split; [auto|]. split; [auto|]. unfold good_rot; cbn.
    repeat rewrite andb_true_iff in L. repeat split; try tauto; lia.
  - destruct a as [[r [rr|]]|]; cbn [fst]; auto. destruct (negb _); cbn [fst]; auto. destruct (i4_vok i); cbn [fst]; auto.
    destruct HG as (G0 & (? & ? & ? & ? & ? & ?) & (? & ? & ?)). cbn. split; [auto|]. split; [|exact I].
    unfold good_row, rotated; cbn. repeat split; auto using xor32_len; lia.
  - destruct a as [[r [rr|]]|]; cbn [fst]; auto. destruct (negb _); cbn [fst]; auto. destruct (i4_vok i); cbn [fst]; auto.
    destruct HG as (G0 & G1 & _). cbn; auto.
  - exact HG.
Qed.

Lemma good_arun id h : add_closed -> forall a, (forall i, In i h -> for_id4 id i = true) -> Forall (fun i => typed4 i = true) h ->
  good_acct id a -> good_acct id (fst (arun acct_step4 a h)).
Proof.
  intros Hadd; induction h as [|i h IH]; intros a Hf HT HG; [exact HG|].
  apply Forall_cons_iff in HT as [HT HT']. rewrite fst_arun_cons4. apply IH; auto; [intros; apply Hf; now right|].
  apply good_step; auto. apply Hf; now left.
Qed.

Lemma reachable_good m : add_closed -> reachable4 c m -> wf_db4 m /\ forall k, good_acct k (account4 k m).
Proof.
  intros Hadd HR. split; [now apply reachable_wf4 in HR|]. destruct HR as (h & rs & HT & E). intros k.
  pose proof (exec_project (DB4.apply4 c) key4 account4 acct_step4 wf_db4
     ltac:(intros; now apply apply4_refines) h empty4 m rs k wf_nil4 E) as HP.
  replace (account4 k m) with (fst (arun acct_step4 (account4 k empty4) (filter (for_id4 k) h))).
  - apply good_arun; [exact Hadd|intros; eapply filter_for_all4; eauto| |exact I].
    rewrite Forall_forall in *. intros i Hi; apply filter_In in Hi; apply HT; tauto.
  - change (mine key4) with for_id4 in HP. rewrite HP; reflexivity.
Qed.

Definition good_db (m : db4) : Prop := wf_db4 m /\ forall k, good_acct k (account4 k m).

Lemma joined_good m k x : good_db m -> In (k, x) (joined m) -> good_acct k (Some x).
Proof.
  intros [W G] H. apply (in_map_kv (fun k r => (r, lookup k (rots4 m)))) in H as (r & Hin & ->).
  specialize (G k). unfold account4 in G. rewrite (in_lookup k r) in G by (auto; apply W). exact G.
Qed.

(* --- rows on the wire --- *)
Lemma parse_ser_row4 p : blen (p4_id p) < 2 ^ 64 -> blen (p4_oprf p) < 2 ^ 64 -> blen (p4_auth p) < 2 ^ 64 ->
  blen (p4_enc p) < 2 ^ 64 -> blen (p4_zero p) < 2 ^ 64 -> blen (p4_doprf p) < 2 ^ 64 -> blen (p4_denc p) < 2 ^ 64 ->
  p4_tries p < 2 ^ 32 -> p4_version p < 2 ^ 64 -> p4_new_version p < 2 ^ 64 ->
  parse_row4 (ser_row4 p) = Some p.
Proof.
  intros H1 H2 H3 H4 H5 H6 H7 H8 H9 H10. unfold parse_row4, ser_row4.
  assert (P : 2 ^ 32 < 2 ^ 64) by reflexivity. assert (P2 : 1 < 2 ^ 29 /\ 15 < 2 ^ 29) by (split; reflexivity).
  rewrite parse_ser by (repeat (apply Forall_app; split); (apply ob_ok || apply ov_ok || apply o64_ok); lia).
  wire_get. destruct p as [i t o a e z d1 d2 v nv]; cbn [p4_id p4_tries p4_oprf p4_auth p4_enc p4_zero p4_doprf p4_denc p4_version p4_new_version] in *.
  f_equal. f_equal.
  - destruct i; reflexivity.
  - destruct (N.eqb_spec t 0); [now subst|]. now apply N.mod_small.
  - destruct o; reflexivity.
  - destruct a; reflexivity.
  - destruct e; reflexivity.
  - destruct z; reflexivity.
  - destruct d1; reflexivity.
  - destruct d2; reflexivity.
  - destruct (N.eqb_spec v 0); [now subst|reflexivity].
  - destruct (N.eqb_spec nv 0); [now subst|reflexivity].
Qed.

Lemma pt_len s : is_point c s = true -> length s = 32%nat.
Proof. unfold is_point; lia. Qed.
Lemma sc_len s : is_scalar c s = true -> length s = 32%nat.
Proof. unfold is_scalar; lia. Qed.

Lemma parse_good k x : good_acct k (Some x) -> parse_row4 (ser_row4 (row_proto4 k x)) = Some (row_proto4 k x).
Proof.
  destruct x as [r o]. intros (Hk & (G1 & G2 & G3 & G4 & G5 & G6) & Go).
  apply pt_len in G1. apply sc_len in G2, G3.
  assert (P64 : 2^64 = 18446744073709551616) by reflexivity.
  assert (P32 : 2^32 = 4294967296) by reflexivity.
  destruct o as [rr|]; [destruct Go as (R1 & R2 & R3); apply sc_len in R1|];
  apply parse_ser_row4; unfold row_proto4;
    cbn [p4_id p4_tries p4_oprf p4_auth p4_enc p4_zero p4_doprf p4_denc p4_version p4_new_version]; unfold blen;
    rewrite ?Hk, ?G1, ?G2, ?G3, ?G4, ?R1, ?R2; cbn [length]; lia.
Qed.

Lemma good_msg k x : good_acct k (Some x) -> row_msg_ok4 c (row_proto4 k x) = true /\
  msg_row4 (row_proto4 k x) = fst x /\ msg_rot4 (row_proto4 k x) = snd x.
Proof.
  destruct x as [r o]. intros (Hk & (G1 & G2 & G3 & G4 & G5 & G6) & Go).
  unfold row_msg_ok4, msg_row4, msg_rot4, row_proto4;
    cbn [p4_id p4_tries p4_oprf p4_auth p4_enc p4_zero p4_doprf p4_denc p4_version p4_new_version fst snd].
  rewrite G1, G2, G3, Hk, G4. rewrite N.mod_small by lia.
  split; [|split].
  - destruct o as [rr|]; [destruct Go as (R1 & R2 & R3); rewrite R1, R2|]; cbn; lia.
  - destruct r; reflexivity.
  - destruct o as [rr|]; [|reflexivity]. destruct Go as (R1 & R2 & R3).
    destruct (N.eqb_spec (rr_version rr) 0); [lia|]. rewrite N.mod_small by lia. destruct rr; reflexivity.
Qed.

Lemma load_row4_ok m s :
  (exists m' id, load_row4 c m s = (m', E_OK, id)) <->
  exists p, parse_row4 s = Some p /\ row_msg_ok4 c p = true /\
            (forall k, last_key (rows4 m) = Some k -> blt k (p4_id p) = true).
Proof.
  unfold load_row4, row_msg_ok4, arr_from, ID_SIZE4, KEY_SIZE4, MAX_TRIES4.
  destruct (parse_row4 s) as [p|]; [|split; [intros (? & ? & ?); discriminate|intros (? & ? & _); discriminate]].
  rewrite pt_from_spec, !sc_from_spec.
  split.
  - intros (m' & id & H). exists p. split; [reflexivity|].
    destruct ((255 <? p4_tries p) || (p4_tries p <? 1))%bool eqn:E1; [discriminate|].
    destruct (length (p4_id p) =? 16)%nat eqn:E2; [|discriminate].
    destruct (match last_key (rows4 m) with Some _ => _ | None => _ end) eqn:E3; [discriminate|].
    destruct (is_point c (p4_auth p)); [|discriminate].
    destruct (is_scalar c (p4_oprf p)); [|discriminate].
    destruct (is_scalar c (p4_zero p)); [|discriminate].
    destruct (length (p4_enc p) =? 32)%nat; [|discriminate].
    split.
    + destruct (p4_new_version p =? 0); [lia|].
      destruct (is_scalar c (p4_doprf p)); [|discriminate]. destruct (length (p4_denc p) =? 32)%nat; [|discriminate]. lia.
    + intros k Hk; rewrite Hk in E3. rewrite ble_nblt in E3. now destruct (blt k (p4_id p)).
  - intros (p' & E & H1 & H2). injection E as <-.
    destruct ((255 <? p4_tries p) || (p4_tries p <? 1))%bool eqn:E1; [lia|].
    destruct (length (p4_id p) =? 16)%nat eqn:E2; [|lia].
    assert (E3 : (match last_key (rows4 m) with Some k => ble (p4_id p) k | None => false end) = false).
    { destruct (last_key (rows4 m)) as [k|]; [|reflexivity]. rewrite ble_nblt, (H2 k eq_refl). reflexivity. }
    rewrite E3. destruct (is_point c (p4_auth p)); [|lia].
    destruct (is_scalar c (p4_oprf p)); [|lia]. destruct (is_scalar c (p4_zero p)); [|lia].
    destruct (length (p4_enc p) =? 32)%nat; [|lia].
    destruct (p4_new_version p =? 0); [eauto|].
    destruct (is_scalar c (p4_doprf p)); [|lia]. destruct (length (p4_denc p) =? 32)%nat; [|lia]. eauto.
Qed.

Lemma load_row4_res m s m' id : wf_db4 m -> load_row4 c m s = (m', E_OK, id) ->
  exists p, parse_row4 s = Some p /\ row_msg_ok4 c p = true /\ id = p4_id p /\
    (forall k v, In (k, v) (rows4 m) -> blt k (p4_id p) = true) /\
    m' = DB4 (rows4 m ++ [(p4_id p, msg_row4 p)])
             (rots4 m ++ match msg_rot4 p with Some rr => [(p4_id p, rr)] | None => [] end).
Proof.
  intros (S & S2 & HD & _) H. assert (HE : exists m' id, load_row4 c m s = (m', E_OK, id)) by eauto.
  apply load_row4_ok in HE as (p & EP & H1 & H2). exists p. split; [exact EP|]. split; [exact H1|].
  assert (HB : forall k v, In (k, v) (rows4 m) -> blt k (p4_id p) = true).
  { intros k v Hin. destruct (last_key (rows4 m)) as [lk|] eqn:EL.
    - specialize (H2 lk eq_refl). destruct (last_key_max _ _ S EL k v Hin) as [->|Hlt]; [exact H2|].
      eapply blt_trans; eauto.
    - apply last_key_none in EL; rewrite EL in Hin; contradiction. }
  assert (HB2 : forall k v, In (k, v) (rots4 m) -> blt k (p4_id p) = true).
  { intros k v Hin. destruct (lookup k (rows4 m)) as [r|] eqn:E; [apply lookup_in in E; eauto|].
    specialize (HD k E). rewrite (in_lookup k v) in HD by auto. discriminate. }
  assert (HN : lookup (p4_id p) (rots4 m) = None).
  { destruct (lookup (p4_id p) (rots4 m)) eqn:E; [|reflexivity]. apply lookup_in, HB2 in E. rewrite blt_irrefl in E; discriminate. }
  revert H; unfold load_row4, arr_from, ID_SIZE4, KEY_SIZE4; rewrite EP. rewrite pt_from_spec, !sc_from_spec. unfold row_msg_ok4 in H1.
  destruct ((MAX_TRIES4 <? p4_tries p) || _)%bool; [discriminate|].
  destruct (length (p4_id p) =? 16)%nat; [|discriminate].
  destruct (match last_key (rows4 m) with Some _ => _ | None => _ end); [discriminate|].
  destruct (is_point c (p4_auth p)); [|discriminate].
  destruct (is_scalar c (p4_oprf p)); [|discriminate].
  destruct (is_scalar c (p4_zero p)); [|discriminate].
  destruct (length (p4_enc p) =? 32)%nat; [|discriminate].
  unfold msg_row4, msg_rot4. rewrite (put_above_last _ _ (rows4 m)) by exact HB. rewrite (N.mod_small (p4_tries p)) by lia.
  destruct (p4_new_version p =? 0).
  - intros H; injection H as <- <-. rewrite app_nil_r. auto.
  - destruct (is_scalar c (p4_doprf p)); [|discriminate]. destruct (length (p4_denc p) =? 32)%nat; [|discriminate].
    rewrite HN, put_above_last by exact HB2. intros H; injection H as <- <-. auto.
Qed.

Lemma wf_unjoin l : sorted l -> (forall k x, In (k, x) l -> good_acct k (Some x)) -> wf_db4 (unjoin l).
Proof.
  intros S G. destruct (unjoin_sorted l S) as [S1 S2]. repeat split; auto.
  - intros k Hn. rewrite unjoin_lookup by auto. destruct (lookup k l) as [[r o]|] eqn:E; [|reflexivity].
    exfalso. apply lookup_in in E.
    assert (Hin : In (k, r) (rows4 (unjoin l))) by (apply in_map_iff; exists (k, (r, o)); auto).
    rewrite (in_lookup k r) in Hn by auto. discriminate.
  - apply lookup_in in H. apply in_map_iff in H as ([k1 [r1 o1]] & E & Hin). injection E as <- <-.
    destruct (G _ _ Hin) as (_ & (_ & _ & _ & _ & _ & Ht) & _). apply Ht.
  - apply lookup_in in H. apply in_map_iff in H as ([k1 [r1 o1]] & E & Hin). injection E as <- <-.
    destruct (G _ _ Hin) as (_ & (_ & _ & _ & _ & _ & Ht) & _). apply Ht.
Qed.

Lemma transfer_ext {S} (d1 d2 : bytes -> nat -> bytes * dberr * list bytes) (load : S -> list bytes -> outcome (S * bytes * dberr)) sizes :
  (forall s n, d1 s n = d2 s n) -> forall dst start, transfer d1 load dst start sizes = transfer d2 load dst start sizes.
Proof.
  intros E; induction sizes as [|n sizes IH]; intros dst start; [reflexivity|]. cbn. rewrite E.
  destruct (d2 start n) as [[? []] [|? ?]]; auto. destruct (load dst _) as [[[? ?] []]|]; auto.
Qed.

Lemma transfer4_lossless m sizes : good_db m ->
  Forall (fun n => (0 < n)%nat) sizes -> (length (rows4 m) <= total sizes)%nat ->
  transfer (rows_as_protos4 m) (load_rows4 c) empty4 [] sizes = Ret (m, E_OK).
Proof.
  intros HG HF Hle. destruct HG as [W G]. assert (HG : good_db m) by (split; auto).
  rewrite (transfer_ext _ (dump_rows (fun id x => ser_row4 (row_proto4 id x)) (joined m) (fun s => above s (joined m)))).
  2:{ intros s n. unfold rows_as_protos4, dump_rows. rewrite walk4_eq, walk4_above by exact W. reflexivity. }
  assert (SJ : sorted (joined m)) by (apply joined_sorted, W).
  assert (HK : forall k v, In (k, v) (joined m) -> length k = 16%nat).
  { intros k [r o] H. exact (proj1 (joined_good m k _ HG H)). }
  destruct (transfer_ok (joined m) (fun id x => ser_row4 (row_proto4 id x)) (fun d pre => d = unjoin pre) false
     (fun db => length (rows4 db)) (load_row4 c) SJ HK) with (dst := empty4) (sizes := sizes)
     as (d & E & HR); auto.
  2:{ unfold joined; rewrite map_length; exact Hle. }
  2:{ rewrite HR in E. rewrite unjoin_joined in E by exact W. exact E. }
  intros dst pre k v post -> Em.
  assert (Hin : In (k, v) (joined m)) by (rewrite Em; apply in_or_app; right; now left).
  assert (Gv := joined_good _ _ _ HG Hin).
  assert (Gp : forall k x, In (k, x) pre -> good_acct k (Some x)).
  { intros k1 x1 H1. apply (joined_good m); auto. rewrite Em; apply in_or_app; now left. }
  rewrite Em in SJ; apply sorted_app in SJ as (Sp & _ & HA).
  assert (Wp := wf_unjoin pre Sp Gp).
  destruct (good_msg _ _ Gv) as (M1 & M2 & M3).
  assert (Eid : p4_id (row_proto4 k v) = k) by (destruct v; reflexivity).
  assert (HE : exists m' id, load_row4 c (unjoin pre) (ser_row4 (row_proto4 k v)) = (m', E_OK, id)).
  { apply load_row4_ok. exists (row_proto4 k v). split; [now apply parse_good|]. split; [exact M1|].
    rewrite Eid. intros k0 Hl. apply last_key_in in Hl as [v0 Hv0].
    apply in_map_iff in Hv0 as ([k1 x1] & E1 & Hv0). injection E1 as <- _.
    specialize (HA _ _ Hv0). cbn in HA; tauto. }
  destruct HE as (m' & id & HE). exists m'.
  destruct (load_row4_res _ _ _ _ Wp HE) as (p & EP & _ & Ei & _ & Em').
  rewrite parse_good in EP by auto. injection EP as <-.
  rewrite Eid, M2, M3 in *. subst m' id. split; [exact HE|]. split.
  - unfold unjoin; cbn [rows4 rots4]. rewrite map_app, flat_map_app. cbn. destruct v as [r [rr|]]; reflexivity.
  - cbn [rows4]. rewrite app_length; cbn; lia.
Qed.

Lemma load_only_good4 m rows m' last : wf_db4 m -> load_rows4 c m rows = Ret (m', last, E_OK) ->
  exists ps, map parse_row4 rows = map Some ps /\ forallb (row_msg_ok4 c) ps = true /\
    rows4 m' = rows4 m ++ map (fun p => (p4_id p, msg_row4 p)) ps /\
    rots4 m' = rots4 m ++ flat_map (fun p => match msg_rot4 p with Some rr => [(p4_id p, rr)] | None => [] end) ps /\
    sorted (rows4 m') /\ sorted (rots4 m').
Proof.
  intros W H. apply load_accepted in H as [H _]. induction H as [s|s r s1 id rows s2 E H IH].
  - exists []; cbn; rewrite !app_nil_r. destruct W as (? & ? & _); auto 6.
  - destruct (load_row4_res _ _ _ _ W E) as (p & EP & HP & _ & HB & ->).
    destruct W as (S & S2 & HD & HT).
    assert (HB2 : forall k v, In (k, v) (rots4 s) -> blt k (p4_id p) = true).
    { intros k v Hin. destruct (lookup k (rows4 s)) as [r0|] eqn:E0; [apply lookup_in in E0; eauto|].
      specialize (HD k E0). rewrite (in_lookup k v) in HD by auto. discriminate. }
    assert (LA : forall V k (a b : smap V), lookup k (a ++ b) = match lookup k a with Some v => Some v | None => lookup k b end).
    { intros V k a b. induction a as [|[k1 v1] a IHa]; [reflexivity|]. cbn. destruct (beq k k1); auto. }
    assert (W1 : wf_db4 (DB4 (rows4 s ++ [(p4_id p, msg_row4 p)])
             (rots4 s ++ match msg_rot4 p with Some rr => [(p4_id p, rr)] | None => [] end))).
    { unfold wf_db4; cbn [rows4 rots4]. split; [|split; [|split]].
      - apply sorted_app; split; [exact S|]. split; [cbn; auto|]. intros k v Hin; cbn; split; auto. eapply HB; eauto.
      - apply sorted_app; split; [exact S2|]. destruct (msg_rot4 p); cbn; split; auto. intros k v Hin; split; eauto.
      - intros k. rewrite !LA. destruct (lookup k (rows4 s)) eqn:E0; [discriminate|]. rewrite (HD k E0). cbn.
        destruct (beq k (p4_id p)) eqn:EB; [discriminate|]. intros _. destruct (msg_rot4 p); cbn; rewrite ?EB; auto.
      - intros k r0. rewrite LA. destruct (lookup k (rows4 s)) eqn:E0; [intros X; injection X as <-; eauto|]. cbn.
        destruct (beq k (p4_id p)); [|discriminate]. intros X; injection X as <-. unfold row_msg_ok4 in HP. cbn. lia. }
    destruct (IH W1) as (ps & E1 & E2 & E3 & E4 & E5).
    exists (p :: ps); cbn. rewrite EP, E1, HP, E2. split; [reflexivity|]. split; [reflexivity|].
    cbn [rows4 rots4] in E3, E4. rewrite <- app_assoc in E3, E4. auto.
Qed.

(* --- sizes and hashes --- *)
Lemma row_size4 k r o : good_acct k (Some (r, o)) ->
  (length (ser_row4 (row_proto4 k (r, o))) <= 243)%nat.
Proof.
  intros (Hk & (G1 & G2 & G3 & G4 & G5 & G6) & Go).
  apply pt_len in G1. apply sc_len in G2, G3.
  unfold ser_row4, row_proto4; cbn [p4_id p4_tries p4_oprf p4_auth p4_enc p4_zero p4_doprf p4_denc p4_version p4_new_version].
  rewrite !ser_msg_app, !app_length.
  rewrite (ser_ob_length 1), (ser_ob_length 3), (ser_ob_length 4), (ser_ob_length 5), (ser_ob_length 6)
    by (try lia; rewrite ?Hk, ?G1, ?G2, ?G3, ?G4; lia).
  rewrite Hk, G1, G2, G3, G4.
  assert (T : (length (ser_msg (opt_var 2 (r4_tries r))) <= 3)%nat).
  { destruct (N.ltb_spec (r4_tries r) 128); [rewrite ser_ov_length1 by lia|rewrite ser_ov_length2 by lia]; lia. }
  pose proof (ser_o64_length 9 (r4_version r)) as V1.
  pose proof (ser_o64_length 10 (match o with Some rr => rr_version rr | None => 0 end)) as V2.
  destruct o as [rr|].
  - destruct Go as (R1 & R2 & R3). apply sc_len in R1.
    rewrite (ser_ob_length 7), (ser_ob_length 8) by (try lia; rewrite ?R1, ?R2; lia). rewrite R1, R2. lia.
  - cbn [opt_bytes ser_msg flat_map length] in *. lia.
Qed.

Lemma hashrow4_inj k1 x1 k2 x2 : good_acct k1 (Some x1) -> good_acct k2 (Some x2) ->
  hashrow_bytes4 k1 x1 = hashrow_bytes4 k2 x2 -> k1 = k2 /\ x1 = x2.
Proof.
  destruct x1 as [r1 o1], x2 as [r2 o2].
  intros (L1 & (A1 & A2 & A3 & A4 & A5 & A6) & Ao) (L2 & (B1 & B2 & B3 & B4 & B5 & B6) & Bo) E.
  apply pt_len in A1, B1. apply sc_len in A2, A3, B2, B3.
  unfold hashrow_bytes4 in E.
  apply app_len_inj in E as [-> E]; [|congruence].
  apply app_len_inj in E as [E1 E]; [|congruence].
  apply app_len_inj in E as [E2 E]; [|congruence].
  apply app_len_inj in E as [E3 E]; [|congruence].
  apply app_len_inj in E as [E4 E]; [|congruence].
  apply app_len_inj in E as [E5 E]; [|reflexivity].
  apply app_len_inj in E as [E6 E]; [|reflexivity].
  apply be32_inj in E6; [|lia|lia]. injection E5 as E5.
  assert (Er : r1 = r2) by (destruct r1, r2; cbn in *; congruence).
  assert (Z : zeros (4 + 32 + 32) = be32 0 ++ zeros 64) by reflexivity.
  split; [reflexivity|]. rewrite Er. f_equal.
  destruct o1 as [q1|], o2 as [q2|]; auto; [| |].
  - destruct Ao as (a1 & a2 & a3), Bo as (b1 & b2 & b3). apply sc_len in a1, b1.
    apply app_len_inj in E as [F1 E]; [|reflexivity]. apply app_len_inj in E as [F2 F3]; [|congruence].
    apply be32_inj in F1; [|lia|lia]. f_equal. destruct q1, q2; cbn in *; congruence.
  - exfalso. destruct Ao as (a1 & a2 & a3). rewrite Z in E. apply app_len_inj in E as [F1 E]; [|reflexivity].
    apply be32_inj in F1; [lia|lia|reflexivity].
  - exfalso. destruct Bo as (a1 & a2 & a3). rewrite Z in E. apply app_len_inj in E as [F1 E]; [|reflexivity].
    apply be32_inj in F1; [lia|reflexivity|lia].
Qed.

Lemma hash4_runs sip16 sha256 m : wf_db4 m -> hash4 sip16 sha256 m =
  Ret (db_hash sip16 sha256 (map (fun kv => hashrow_bytes4 (fst kv) (snd kv)) (joined m))).
Proof. intros W. unfold hash4. now rewrite walk4_eq by exact W. Qed.

Lemma hash4_det sip16 sha256 m1 m2 : wf_db4 m1 -> wf_db4 m2 ->
  (forall id, account4 id m1 = account4 id m2) ->
  exists d, hash4 sip16 sha256 m1 = Ret d /\ hash4 sip16 sha256 m2 = Ret d.
Proof.
  intros W1 W2 E. eexists. split; [now apply hash4_runs|]. rewrite hash4_runs by exact W2. do 3 f_equal.
  apply smap_ext; try (apply joined_sorted; apply W1 || apply W2).
  intros k. rewrite !lookup_joined. specialize (E k). unfold account4 in E.
  destruct (lookup k (rows4 m1)), (lookup k (rows4 m2)); congruence.
Qed.

Lemma hash4_collision sip16 sha256 m1 m2 : (forall x, length (sip16 x) = 16%nat) ->
  good_db m1 -> good_db m2 ->
  hash4 sip16 sha256 m1 = hash4 sip16 sha256 m2 ->
  m1 = m2 \/ collision sip16 \/ collision sha256.
Proof.
  intros HL W1 W2 E. rewrite !hash4_runs in E by (apply W1 || apply W2).
  assert (E' : db_hash sip16 sha256 (map (fun kv => hashrow_bytes4 (fst kv) (snd kv)) (joined m1)) =
               db_hash sip16 sha256 (map (fun kv => hashrow_bytes4 (fst kv) (snd kv)) (joined m2))) by congruence. clear E.
  destruct (db_hash_inj _ _ _ _ HL E') as [Em|]; [|auto].
  left. rewrite <- (unjoin_joined m1), <- (unjoin_joined m2) by (apply W1 || apply W2). f_equal.
  assert (V1 := fun k x => joined_good m1 k x W1). assert (V2 := fun k x => joined_good m2 k x W2).
  clear - Em V1 V2. revert Em V1 V2. generalize (joined m1) (joined m2).
  intros l1; induction l1 as [|[k1 r1] l1 IH]; intros [|[k2 r2] l2] E V1 V2; try discriminate; auto.
  cbn [map fst snd] in E.
  assert (E1 := f_equal (hd []) E). assert (E2 := f_equal (@tl _) E). cbn [hd tl] in E1, E2. clear E.
  destruct (hashrow4_inj k1 r1 k2 r2) as [-> ->]; auto; [apply V1; now left|apply V2; now left|].
  f_equal. apply IH; auto; intros; [apply V1|apply V2]; now right.
Qed.
End Transfer4.
