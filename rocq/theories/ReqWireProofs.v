(* Proofs about requests as bytes. *)
From Verif Require Import WireProofs ReqWireSpec DB2 DB3 DB4 DB5.

Lemma le32_roundtrip n : n < 2 ^ 32 -> le32_value (le32 n) = n.
Proof. intros H. change (2 ^ 32) with 4294967296 in H. unfold le32, le32_value. change (2 ^ 8) with 256. change (2 ^ 16) with 65536. change (2 ^ 24) with 16777216. lia. Qed.
Lemma get_32_app f l1 l2 d : get_32 f (l1 ++ l2) d = get_32 f l2 (get_32 f l1 d).
Proof. revert d; induction l1 as [|[g [n|n|b|b]] l1 IH]; intros d; cbn; auto. Qed.
Lemma get_32_ob f g b d : get_32 f (opt_bytes g b) d = d. Proof. destruct b; reflexivity. Qed.
Lemma get_32_ov f g n d : get_32 f (opt_var g n) d = d. Proof. unfold opt_var; destruct (n =? 0); reflexivity. Qed.
Lemma get_32_o32 f g n d : n < 2 ^ 32 -> get_32 f (opt_32 g n) d = if g =? f then (if n =? 0 then d else n) else d.
Proof. intros H. unfold opt_32; destruct (n =? 0); cbn [get_32]; [destruct (g =? f); reflexivity|]. rewrite le32_roundtrip by assumption. reflexivity. Qed.
Lemma get_bytes_o32 f g n d : get_bytes f (opt_32 g n) d = d. Proof. unfold opt_32; destruct (n =? 0); reflexivity. Qed.
Lemma get_var_o32 f g n d : get_var f (opt_32 g n) d = d. Proof. unfold opt_32; destruct (n =? 0); reflexivity. Qed.
Lemma o32_ok f n : 1 <= f < 2 ^ 29 -> Forall field_ok (opt_32 f n).
Proof. intros; unfold opt_32; destruct (n =? 0); repeat constructor; cbn; auto; tauto. Qed.
Ltac wg :=
  repeat rewrite ?get_bytes_app, ?get_var_app, ?get_32_app, ?get_bytes_ob, ?get_bytes_ov,
    ?get_bytes_o32, ?get_var_ob, ?get_var_ov, ?get_var_o32, ?get_32_ob, ?get_32_ov, ?get_32_o32 by assumption;
  cbn [N.eqb Pos.eqb].

(* --- sizes ------------------------------------------------------------------------ *)
Lemma varint_aux_len fuel : forall n, (length (varint_aux fuel n) <= fuel)%nat.
Proof. induction fuel as [|f IH]; intros n; cbn; [lia|]. destruct (n <? 128); cbn; [lia|]. specialize (IH (n / 128)). lia. Qed.
Lemma varint_len n : (length (varint n) <= 10)%nat. Proof. apply varint_aux_len. Qed.
Lemma blen_app (a b : bytes) : blen (a ++ b) = blen a + blen b. Proof. unfold blen. rewrite app_length. lia. Qed.
Lemma ob_len f b : blen (ser_msg (opt_bytes f b)) <= 20 + blen b.
Proof.
  destruct b as [|x b]; [cbn; lia|]. unfold opt_bytes, ser_msg. cbn [flat_map]. rewrite app_nil_r. unfold ser_field. rewrite !blen_app.
  pose proof (varint_len (f * 8 + 2)). pose proof (varint_len (blen (x :: b))). unfold blen in *. lia.
Qed.
Lemma ov_len f n : blen (ser_msg (opt_var f n)) <= 20.
Proof.
  unfold opt_var. destruct (n =? 0); [cbn; lia|]. unfold ser_msg. cbn [flat_map]. rewrite app_nil_r. unfold ser_field. rewrite !blen_app.
  pose proof (varint_len (f * 8)). pose proof (varint_len n). unfold blen in *. lia.
Qed.
Lemma o32_len f n : blen (ser_msg (opt_32 f n)) <= 20.
Proof.
  unfold opt_32. destruct (n =? 0); [cbn; lia|]. unfold ser_msg. cbn [flat_map]. rewrite app_nil_r. unfold ser_field. rewrite !blen_app.
  pose proof (varint_len (f * 8 + 5)). unfold blen, le32 in *. cbn [length] in *. lia.
Qed.
Lemma field_len f b : blen (ser_msg [(f, WBytes b)]) <= 20 + blen b.
Proof.
  unfold ser_msg. cbn [flat_map]. rewrite app_nil_r. unfold ser_field. rewrite !blen_app.
  pose proof (varint_len (f * 8 + 2)). pose proof (varint_len (blen b)). unfold blen in *. lia.
Qed.
Lemma in_oneof_len f m : blen (in_oneof f m) <= 20 + blen (ser_msg m).
Proof. apply field_len. Qed.
Ltac lens :=
  repeat rewrite ser_msg_app; repeat rewrite blen_app;
  repeat match goal with
  | |- context[ser_msg (opt_bytes ?f ?b)] => let H := fresh in pose proof (ob_len f b) as H; revert H; generalize (blen (ser_msg (opt_bytes f b))); intros
  | |- context[ser_msg (opt_var ?f ?b)] => let H := fresh in pose proof (ov_len f b) as H; revert H; generalize (blen (ser_msg (opt_var f b))); intros
  | |- context[ser_msg (opt_32 ?f ?b)] => let H := fresh in pose proof (o32_len f b) as H; revert H; generalize (blen (ser_msg (opt_32 f b))); intros
  end.
Definition P40 := 2 ^ 40.
Lemma p32 : 2 ^ 32 = 4294967296. Proof. reflexivity. Qed.
Lemma p40 : P40 = 1099511627776. Proof. reflexivity. Qed.
Lemma p64 : 2 ^ 64 = 18446744073709551616. Proof. reflexivity. Qed.
Lemma p29 : 2 ^ 29 = 536870912. Proof. reflexivity. Qed.
Ltac fin := unfold str_fits, num_fits in *; pose proof p32; pose proof p40; pose proof p64; pose proof p29; change (blen (ser_msg [])) with 0; change (blen []) with 0; lia.

(* --- one oneof ---------------------------------------------------------------------- *)
Lemma read_in_oneof fs f m : In f fs -> 1 <= f < 2 ^ 29 -> Forall field_ok m -> blen (ser_msg m) < 2 ^ 64 ->
  read_oneof fs (in_oneof f m) = Some (Some (f, m)).
Proof.
  intros Hin Hf Hm Hl. unfold read_oneof, in_oneof. rewrite parse_ser by (repeat constructor; cbn; auto; tauto).
  assert (Hp : is_part fs (f, WBytes (ser_msg m)) = true). { cbn. apply existsb_exists. exists f. split; [assumption|apply N.eqb_refl]. }
  unfold parts_ok. cbn [filter]. rewrite Hp. cbn [forallb part oneof]. rewrite Hp. cbn [fst part]. rewrite parse_ser by assumption. reflexivity.
Qed.
Lemma read_empty fs : read_oneof fs [] = Some None. Proof. reflexivity. Qed.
Lemma bd (x : N) : (if x =? 0 then 0 else x) = x. Proof. destruct (N.eqb_spec x 0); lia. Qed.

Ltac fok := repeat (apply Forall_app; split); auto; try (apply ob_ok; fin); try (apply ov_ok; fin); try (apply o32_ok; fin).
Ltac len_t := intros H; try (eapply N.le_lt_trans; [apply in_oneof_len|]); lens; try fin.
Lemma req2_len r : fits2 r -> blen (ser_req2 r) < P40. Proof. destruct r; cbn [fits2 ser_req2]; len_t. Qed.
Lemma req3_len r : fits3 r -> blen (ser_req3 r) < P40. Proof. destruct r; cbn [fits3 ser_req3]; len_t. Qed.
Lemma req4_len r : fits4 r -> blen (ser_req4 r) < P40. Proof. destruct r; cbn [fits4 ser_req4]; len_t. Qed.
Lemma req5_len r : fits5 r -> blen (ser_req5 r) < P40. Proof. destruct r; cbn [fits5 ser_req5]; len_t. Qed.
Lemma nil_id (b : bytes) : match b with [] => [] | _ :: _ => b end = b. Proof. now destruct b. Qed.
Ltac rt_t :=
  first [rewrite read_empty; reflexivity |
  rewrite read_in_oneof; [|cbn; tauto|fin|solve [fok]|solve [lens; fin]]; cbn [N.eqb Pos.eqb];
  repeat match goal with H : _ /\ _ |- _ => destruct H end; unfold num_fits in *; wg; rewrite ?nil_id, ?bd, ?N.mod_small by assumption; reflexivity].
Lemma req2_roundtrip r : fits2 r -> parse_req2 (ser_req2 r) = Some r.
Proof. intros H. unfold parse_req2. destruct r; cbn [fits2 ser_req2] in *; rt_t. Qed.
Lemma req3_roundtrip r : fits3 r -> parse_req3 (ser_req3 r) = Some r.
Proof. intros H. unfold parse_req3. destruct r; cbn [fits3 ser_req3] in *; rt_t. Qed.
Lemma req4_roundtrip r : fits4 r -> parse_req4 (ser_req4 r) = Some r.
Proof. intros H. unfold parse_req4. destruct r; cbn [fits4 ser_req4] in *; rt_t. Qed.
Lemma req5_roundtrip r : fits5 r -> parse_req5 (ser_req5 r) = Some r.
Proof. intros H. unfold parse_req5. destruct r; cbn [fits5 ser_req5] in *; rt_t. Qed.

(* --- a log ---------------------------------------------------------------------------- *)
Lemma filter_ob f g b : f <> g -> filter (is_part [f]) (opt_bytes g b) = [].
Proof. intros H. destruct b; cbn; [reflexivity|]. destruct (N.eqb_spec g f); [congruence|reflexivity]. Qed.
Lemma log_roundtrip {R} (parse : bytes -> option R) id s key r : blen id < P40 -> blen s < P40 -> blen key < P40 -> parse s = Some r ->
  read_log parse (ser_msg (opt_bytes 1 id ++ [(2, WBytes s)] ++ opt_bytes 3 key)) = Some (id, r, key).
Proof.
  intros H1 H2 H3 Hp. unfold read_log. rewrite parse_ser.
  2: { repeat (apply Forall_app; split); try (apply ob_ok; fin). constructor; [|constructor]. split; cbn [fst snd]; fin. }
  unfold whole. rewrite !filter_app, !filter_ob by discriminate. cbn [app filter is_part existsb N.eqb Pos.eqb orb forallb part flat_map]. rewrite ?app_nil_r, Hp.
  cbn [negb andb]. wg. cbn [get_bytes N.eqb Pos.eqb]. wg. rewrite ?nil_id. reflexivity.
Qed.
Lemma log2_roundtrip l : str_fits (l_id l) -> fits2 (l_req l) -> parse_log2 (ser_log2 l) = Some l.
Proof.
  intros H1 H2. unfold parse_log2, ser_log2. destruct l as [id r]; cbn [l_id l_req] in *.
  pose proof (log_roundtrip parse_req2 id (ser_req2 r) [] r ltac:(fin) (req2_len r H2) ltac:(fin) (req2_roundtrip r H2)) as X. cbn [opt_bytes app] in X. unfold field in X |- *. now rewrite X.
Qed.
Lemma log3_roundtrip l : str_fits (l3_id l) -> fits3 (l3_req l) -> str_fits (l3_priv l) -> parse_log3 (ser_log3 l) = Some l.
Proof.
  intros H1 H2 H3. unfold parse_log3, ser_log3. destruct l as [id r k]; cbn [l3_id l3_req l3_priv] in *.
  now rewrite (log_roundtrip parse_req3 id (ser_req3 r) k r ltac:(fin) (req3_len r H2) ltac:(fin) (req3_roundtrip r H2)).
Qed.
Lemma log4_roundtrip l : str_fits (l4_id l) -> fits4 (l4_req l) -> parse_log4 (ser_log4 l) = Some l.
Proof.
  intros H1 H2. unfold parse_log4, ser_log4. destruct l as [id r]; cbn [l4_id l4_req] in *.
  pose proof (log_roundtrip parse_req4 id (ser_req4 r) [] r ltac:(fin) (req4_len r H2) ltac:(fin) (req4_roundtrip r H2)) as X. cbn [opt_bytes app] in X. unfold field in X |- *. now rewrite X.
Qed.
Lemma log5_roundtrip l : str_fits (l5_id l) -> fits5 (l5_req l) -> parse_log5 (ser_log5 l) = Some l.
Proof.
  intros H1 H2. unfold parse_log5, ser_log5. destruct l as [id r]; cbn [l5_id l5_req] in *.
  pose proof (log_roundtrip parse_req5 id (ser_req5 r) [] r ltac:(fin) (req5_len r H2) ltac:(fin) (req5_roundtrip r H2)) as X. cbn [opt_bytes app] in X. unfold field in X |- *. now rewrite X.
Qed.

(* --- what parses fits ------------------------------------------------------------------ *)
Definition val_bytes (v : wval) : bytes := match v with WBytes b | W32 b => b | _ => [] end.
Definition all_bytes (l : list field) : bytes := flat_map (fun fv => val_bytes (snd fv)) l.
Lemma read_varint_aux_suffix fuel : forall s n r, read_varint_aux fuel s = Some (n, r) -> exists p, s = p ++ r.
Proof.
  induction fuel as [|f IH]; intros s n r H; [discriminate|]. cbn in H. destruct s as [|b s]; [discriminate|].
  destruct (b <? 128). { injection H as <- <-. now exists [b]. }
  destruct (read_varint_aux f s) as [[n' r']|] eqn:E; [|discriminate]. injection H as <- <-. destruct (IH _ _ _ E) as [p ->]. now exists (b :: p).
Qed.
Lemma read_varint_suffix s n r : read_varint s = Some (n, r) -> exists p, s = p ++ r.
Proof. unfold read_varint. destruct (read_varint_aux 10 s) as [[n' r']|] eqn:E; [|discriminate]. intros H. injection H as <- <-. eapply read_varint_aux_suffix; eassumption. Qed.
Lemma read_val_suffix wt s v r : read_val wt s = Some (v, r) -> exists p q, s = p ++ val_bytes v ++ q ++ r.
Proof.
  unfold read_val. destruct (wt =? 0).
  { destruct (read_varint s) as [[n r']|] eqn:E; [|discriminate]. intros H. injection H as <- <-. destruct (read_varint_suffix _ _ _ E) as [p ->]. exists p, []. reflexivity. }
  destruct (wt =? 1).
  { unfold le64_from. do 8 (destruct s as [|?x s]; [discriminate|]). destruct (be64_from _); [|discriminate]. intros H. injection H as <- <-.
    exists [x; x0; x1; x2; x3; x4; x5; x6], []. reflexivity. }
  destruct (wt =? 2).
  { destruct (read_varint s) as [[n r']|] eqn:E; [|discriminate]. destruct (read_varint_suffix _ _ _ E) as [p ->].
    destruct (blen r' <? n); [discriminate|]. intros H. injection H as <- <-. exists p, []. cbn [val_bytes app]. now rewrite firstn_skipn. }
  destruct (wt =? 5); [|discriminate]. destruct (Nat.ltb (length s) 4); [discriminate|]. intros H. injection H as <- <-.
  exists [], []. symmetry. exact (firstn_skipn 4 s).
Qed.
(* all strings of a parsed message are parts of it, without overlap *)
Lemma parse_aux_bytes fuel : forall s l, parse_aux fuel s = Some l ->
  (length (all_bytes l) <= length s)%nat /\ (bytes_ok s = true -> bytes_ok (all_bytes l) = true) /\ forall g b, In (g, W32 b) l -> (length b <= 4)%nat.
Proof.
  induction fuel as [|f IH]; intros s l H.
  { destruct s; [|discriminate]. injection H as <-. cbn. repeat split; auto; try lia; intros ? ? []. }
  destruct s as [|c s]. { injection H as <-. cbn. repeat split; auto; try lia; intros ? ? []. }
  cbn [parse_aux] in H. destruct (read_varint (c :: s)) as [[tag r]|] eqn:E1; [|discriminate]. destruct (tag / 8 =? 0); [discriminate|].
  destruct (read_val (tag mod 8) r) as [[v r']|] eqn:E2; [|discriminate]. destruct (parse_aux f r') as [l'|] eqn:E3; [|discriminate]. injection H as <-.
  destruct (read_varint_suffix _ _ _ E1) as [p Hp]. destruct (read_val_suffix _ _ _ _ E2) as (p1 & q1 & Hq). destruct (IH _ _ E3) as (H1 & H2 & H3).
  rewrite Hp, Hq. unfold all_bytes in *. cbn [flat_map snd]. split; [rewrite !app_length; lia|]. split.
  - unfold bytes_ok in *. rewrite !forallb_app. intros X. repeat (apply andb_true_iff in X as [? X]). apply andb_true_iff. split; [assumption|]. apply H2; assumption.
  - intros g b [X|X]; [|eapply H3; exact X]. injection X as _ ->. clear -E2. unfold read_val in E2.
    destruct (tag mod 8 =? 0); [destruct (read_varint r) as [[]|]; discriminate|]. destruct (tag mod 8 =? 1); [destruct (le64_from r) as [[]|]; discriminate|].
    destruct (tag mod 8 =? 2). { destruct (read_varint r) as [[n r0]|]; [|discriminate]. destruct (blen r0 <? n); discriminate. }
    destruct (tag mod 8 =? 5); [|discriminate]. destruct (Nat.ltb (length r) 4); [discriminate|]. assert (Eb : b = firstn 4 r) by congruence. rewrite Eb. exact (firstn_le_length 4 r).
Qed.
Definition good (n : N) (l : list field) : Prop := blen (all_bytes l) <= n /\ bytes_ok (all_bytes l) = true /\ forall g b, In (g, W32 b) l -> (length b <= 4)%nat.
Lemma parse_good s l : bytes_ok s = true -> parse_msg s = Some l -> good (blen s) l.
Proof. intros Hs H. destruct (parse_aux_bytes _ _ _ H) as (H1 & H2 & H3). split; [unfold blen; lia|auto]. Qed.
Lemma bytes_ok_app a b : bytes_ok (a ++ b) = (bytes_ok a && bytes_ok b)%bool. Proof. apply forallb_app. Qed.
Lemma good_tail n fv l : good n (fv :: l) -> good n l.
Proof.
  intros (H1 & H2 & H3). unfold good, all_bytes in *. cbn [flat_map] in *. rewrite blen_app in H1. rewrite bytes_ok_app in H2. apply andb_true_iff in H2 as [_ H2].
  repeat split; [lia|assumption|]. intros g b X. eapply H3. right. exact X.
Qed.
Lemma get_bytes_good n f l : good n l -> forall d, blen d <= n -> blen (get_bytes f l d) <= n.
Proof.
  induction l as [|[g v] l IH]; intros Hg d Hd; [exact Hd|]. pose proof (good_tail _ _ _ Hg) as Ht. destruct v; cbn [get_bytes]; try (apply IH; assumption).
  apply IH; [assumption|]. destruct (g =? f); [|assumption]. destruct Hg as (H1 & _). unfold all_bytes in H1. cbn [flat_map snd val_bytes] in H1. rewrite blen_app in H1. lia.
Qed.
Lemma le32_value_small b : (length b <= 4)%nat -> bytes_ok b = true -> le32_value b < 2 ^ 32.
Proof.
  intros H Hb. change (2 ^ 32) with 4294967296. do 4 (destruct b as [|?x b]; [cbn; lia|]). destruct b; [|cbn in H; lia]. unfold bytes_ok, byte_ok in Hb. cbn [forallb] in Hb.
  repeat (apply andb_true_iff in Hb as [?H Hb]). unfold le32_value. change (2 ^ 8) with 256. change (2 ^ 16) with 65536. change (2 ^ 24) with 16777216. lia.
Qed.
Lemma get_32_good n f l : good n l -> forall d, d < 2 ^ 32 -> get_32 f l d < 2 ^ 32.
Proof.
  induction l as [|[g v] l IH]; intros Hg d Hd; [exact Hd|]. pose proof (good_tail _ _ _ Hg) as Ht. destruct v; cbn [get_32]; try (apply IH; assumption).
  apply IH; [assumption|]. destruct (g =? f); [|assumption]. destruct Hg as (_ & H2 & H3). apply le32_value_small; [eapply H3; left; reflexivity|].
  unfold all_bytes in H2. cbn [flat_map snd val_bytes] in H2. rewrite bytes_ok_app in H2. now apply andb_true_iff in H2 as [? _].
Qed.
Lemma part_val fv fs : is_part fs fv = true -> part fv = val_bytes (snd fv). Proof. destruct fv as [g []]; cbn; congruence. Qed.
Lemma oneof_good fs l : forall cur g b n m, good n l -> (forall g0 b0, cur = Some (g0, b0) -> blen b0 <= m /\ bytes_ok b0 = true) ->
  oneof fs l cur = Some (g, b) -> blen b <= m + blen (all_bytes l) /\ bytes_ok b = true.
Proof.
  induction l as [|fv l IH]; intros cur g b n m Hg Hc H; cbn [oneof] in H.
  { destruct (Hc _ _ H) as [H1 H2]. split; [lia|assumption]. }
  pose proof (good_tail _ _ _ Hg) as Ht. destruct Hg as (_ & Hb & _). unfold all_bytes in Hb |- *. cbn [flat_map] in Hb |- *. rewrite blen_app. fold (all_bytes l) in *.
  rewrite bytes_ok_app in Hb. apply andb_true_iff in Hb as [Hb _].
  destruct (is_part fs fv) eqn:Ep.
  - rewrite <- (part_val _ _ Ep) in *. eapply (IH _ g b n (m + blen (part fv))) in H; [split; [lia|apply H]|assumption|].
    intros g0 b0 X. destruct cur as [[g1 b1]|].
    + destruct (Hc _ _ eq_refl) as [H1 H2]. destruct (g1 =? fst fv); injection X as <- <-; [rewrite blen_app, bytes_ok_app, H2, Hb|]; split; auto; lia.
    + injection X as <- <-. split; auto; lia.
  - eapply (IH _ g b n m) in H; [split; [lia|apply H]|assumption|assumption].
Qed.
Lemma read_oneof_good fs s g m : message s -> read_oneof fs s = Some (Some (g, m)) -> good (2 ^ 31) m.
Proof.
  intros [Hs Hl] H. unfold read_oneof in H. destruct (parse_msg s) as [l|] eqn:E; [|discriminate]. destruct (negb (parts_ok fs l)); [discriminate|].
  destruct (oneof fs l None) as [[g0 b]|] eqn:Eo; [|discriminate]. destruct (parse_msg b) as [m0|] eqn:Em; [|discriminate]. injection H as <- <-.
  pose proof (parse_good _ _ Hs E) as Hg. eapply (oneof_good fs l None g0 b _ 0) in Eo; [|exact Hg|discriminate]. destruct Eo as [H1 H2].
  destruct (parse_good _ _ H2 Em) as (H3 & H4 & H5). destruct Hg as (H6 & _). repeat split; auto. lia.
Qed.
Ltac gd Hg := unfold str_fits, num_fits; 
  repeat split; try exact I;
  try (eapply N.le_lt_trans; [apply (get_bytes_good _ _ _ Hg); cbn; discriminate|reflexivity]);
  try (apply (get_32_good _ _ _ Hg); reflexivity); try (apply N.mod_lt; discriminate).
Lemma parse_req2_fits s r : message s -> parse_req2 s = Some r -> fits2 r.
Proof.
  intros Hs H. unfold parse_req2 in H. destruct (read_oneof _ s) as [[[g m]|]|] eqn:E; try discriminate; injection H as <-; [|exact I].
  pose proof (read_oneof_good _ _ _ _ Hs E) as Hg. repeat match goal with |- fits2 (if ?c then _ else _) => destruct c end; cbn [fits2]; gd Hg.
Qed.
Lemma parse_req3_fits s r : message s -> parse_req3 s = Some r -> fits3 r.
Proof.
  intros Hs H. unfold parse_req3 in H. destruct (read_oneof _ s) as [[[g m]|]|] eqn:E; try discriminate; injection H as <-; [|exact I].
  pose proof (read_oneof_good _ _ _ _ Hs E) as Hg. repeat match goal with |- fits3 (if ?c then _ else _) => destruct c end; cbn [fits3]; gd Hg.
Qed.
Lemma parse_req4_fits s r : message s -> parse_req4 s = Some r -> fits4 r.
Proof.
  intros Hs H. unfold parse_req4 in H. destruct (read_oneof _ s) as [[[g m]|]|] eqn:E; try discriminate; injection H as <-; [|exact I].
  pose proof (read_oneof_good _ _ _ _ Hs E) as Hg. repeat match goal with |- fits4 (if ?c then _ else _) => destruct c end; cbn [fits4]; gd Hg.
Qed.
Lemma parse_req5_fits s r : message s -> parse_req5 s = Some r -> fits5 r.
Proof.
  intros Hs H. unfold parse_req5 in H. destruct (read_oneof _ s) as [[[g m]|]|] eqn:E; try discriminate; injection H as <-; [|exact I].
  pose proof (read_oneof_good _ _ _ _ Hs E) as Hg. repeat match goal with |- fits5 (if ?c then _ else _) => destruct c end; cbn [fits5]; gd Hg.
Qed.
