(* C42, C43, C44, C47: encodings, comparison of secrets, peer ids.  Vocabulary:
   CodecSpec.v. *)
From Verif Require Import Codec CodecSpec CodecProofs UtilProofs.

Theorem C42_hex_roundtrip : forall s, bytes_ok s = true -> hex_to_bytes (bytes_to_hex s) = Hex_OK s.
Proof. exact hex_roundtrip. Qed.
(* the hex decoder accepts exactly the strings of an even number of digits, and
   what it answers encodes to its input, up to case *)
Theorem C42_hex_accepts :
  forall s o, hex_to_bytes s = Hex_OK o <->
  Nat.Even (length s) /\ (forall c, In c s -> is_hex_digit c) /\ bytes_to_hex o = map lower s /\ bytes_ok o = true.
Proof.
  intros s o. unfold hex_to_bytes, blen. destruct (N.of_nat (length s) mod 2 =? 0) eqn:E; cbn [negb].
  - assert (He : Nat.Even (length s)) by (exists (length s / 2)%nat; lia). rewrite hex_loop_iff by assumption. tauto.
  - split; [discriminate|]. intros [[k Hk] _]. lia.
Qed.
Theorem C42_base64_roundtrip :
  forall e padding s, e = b64std \/ e = b64url -> bytes_ok s = true -> b64_decode e (b64_encode e padding s) = Ret (B64_OK s).
Proof. intros e padding s [->| ->]; apply b64_roundtrip; [exact good_std|exact good_url]. Qed.
(* the base64 decoder accepts exactly letters of its alphabet, then any padding *)
Theorem C42_base64_accepts :
  forall e s, e = b64std \/ e = b64url -> (forall c, In c s -> c < 128) ->
  ((exists o, b64_decode e s = Ret (B64_OK o)) <->
   exists body n, s = body ++ repeat pad_char n /\ forall c, In c body -> In c (b64_alphabet e)).
Proof.
  intros e s He Hs. assert (Hg : good e) by (destruct He as [->| ->]; [exact good_std|exact good_url]).
  destruct (b64_loop_total e Hg s 0 0 0 0 ltac:(lia) ltac:(lia) Hs) as [r [E Hr]]. unfold b64_decode. rewrite <- Hr, E.
  split; intros [o Ho]; exists o; congruence.
Qed.
Theorem C42_integers_roundtrip :
  (forall v rest, v < 2 ^ 64 -> be64_from (be64 v ++ rest) = Some v) /\
  (forall v rest, v < 2 ^ 32 -> be32_from (be32 v ++ rest) = Some v) /\
  (forall v v', v < 2 ^ 64 -> v' < 2 ^ 64 -> le64 v = le64 v' -> v = v').
Proof. repeat split; [exact be64_roundtrip|exact be32_roundtrip|exact le64_inj]. Qed.

(* C43 *)
Theorem C43_equals_is_equality : forall a b, ct_equals a b = Ret true <-> a = b.
Proof. intros a b. rewrite ct_equals_spec, <- beq_eq. split; congruence. Qed.
Theorem C43_never_crashes : forall a b, ct_equals a b <> Crash.
Proof. intros a b. rewrite ct_equals_spec. discriminate. Qed.
(* the offsets read, in order, for two strings of one length *)
Theorem C43_accesses_depend_on_length_only :
  forall a b a' b' n, length a = n -> length b = n -> length a' = n -> length b' = n ->
  exists r r' tr, ct_loop a b n 0 0 = Ret (r, tr) /\ ct_loop a' b' n 0 0 = Ret (r', tr) /\ length tr = n.
Proof.
  intros a b a' b' n Ha Hb Ha' Hb'.
  destruct (ct_loop_spec a b n 0 0 ltac:(lia) ltac:(lia)) as [r [E _]].
  destruct (ct_loop_spec a' b' n 0 0 ltac:(lia) ltac:(lia)) as [r' [E' _]].
  exists r, r'. eexists. split; [exact E|]. split; [exact E'|]. now rewrite map_length, seq_length.
Qed.

(* C44 is false as stated, where char is signed. *)
Theorem C44_table_bounds_refuted : exists s, bytes_ok s = true /\ b64_decode b64std s = Crash /\ b64_decode b64url s = Crash.
Proof. exists [65; 195; 169]. vm_compute. auto. Qed.
(* what is true: for 7-bit input.  Missing: bytes from 128 on. *)
Theorem C44_seven_bit_partial :
  forall e s, e = b64std \/ e = b64url -> (forall c, In c s -> c < 128) -> b64_decode e s <> Crash.
Proof.
  intros e s He Hs. assert (Hg : good e) by (destruct He as [->| ->]; [exact good_std|exact good_url]).
  destruct (b64_loop_total e Hg s 0 0 0 0 ltac:(lia) ltac:(lia) Hs) as [r [E _]]. unfold b64_decode. congruence.
Qed.

(* C47 *)
Theorem C47_parse_is_strict : forall s p, peer_from_string s = Some p <-> length s = 32%nat /\ p = s.
Proof. intros s p. unfold peer_from_string, blen. destruct (_ =? _) eqn:E; split; try discriminate; intros H; [injection H as <-; split; auto; lia|now destruct H as [_ ->]|lia]. Qed.
Theorem C47_roundtrip : forall p, length p = 32%nat -> peer_from_string (peer_to_string p) = Some p.
Proof. intros p H. apply C47_parse_is_strict. auto. Qed.
Theorem C47_valid_is_nonzero : forall p, length p = 32%nat -> (peer_valid p = true <-> exists b, In b p /\ b <> 0).
Proof.
  intros p Hp. unfold peer_valid. rewrite negb_true_iff, beq_neq. unfold peer_zero, zeros. rewrite <- Hp. clear Hp. split.
  - intros H. induction p as [|b p IH]; [contradiction|]. destruct (N.eq_dec b 0) as [->|Hb]; [|exists b; cbn; auto].
    cbn in H. destruct IH as [b [Hb Hn]]; [congruence|]. exists b. cbn; auto.
  - intros [b [Hin Hb]] E. rewrite E in Hin. apply repeat_spec in Hin. auto.
Qed.
Theorem C47_total_order :
  (forall p q, peer_eq p q = true <-> p = q) /\ (forall p, peer_lt p p = false) /\
  (forall p q r, peer_lt p q = true -> peer_lt q r = true -> peer_lt p r = true) /\
  (forall p q, peer_lt p q = true \/ peer_eq p q = true \/ peer_lt q p = true).
Proof.
  repeat split; try apply beq_eq; [apply blt_irrefl|apply blt_trans|].
  intros p q. destruct (blt_total p q) as [H|[->|H]]; auto. right; left. apply beq_refl.
Qed.

Example x_codecs :
  hex_to_bytes [100; 69; 97; 68] = Hex_OK [222; 173] /\ hex_to_bytes [48; 103] = Hex_CharInvalid /\ hex_to_bytes [48] = Hex_BytesSize /\
  b64_encode b64std true [255; 239; 190; 173] = [47; 43; 43; 43; 114; 81; 61; 61] /\
  b64_decode b64url [95; 45; 45; 45; 114; 81] = Ret (B64_OK [255; 239; 190; 173]) /\
  b64_decode b64std [65; 61; 65] = Ret B64_InvalidPadding /\ b64_decode b64std [65; 45] = Ret B64_InvalidChar /\
  peer_debug (repeat 171 32) = [97; 98; 97; 98; 97; 98; 97; 98] /\ peer_lt (repeat 1 32) (repeat 2 32) = true.
Proof. vm_compute. auto 20. Qed.

(* C42: the formats themselves.  Base64 is that of RFC 4648 *)
Theorem C42_base64_is_rfc4648 : forall (url padding : bool) s, bytes_ok s = true ->
  b64_encode (if url then b64url else b64std) padding s = rfc4648 url padding s.
Proof.
  intros url padding s Hs. set (e := if url then b64url else b64std).
  assert (Hl : forall o, o < 64 -> ch e o = letter url o).
  { intros o Ho. assert (G : forallb (fun o => ch e o =? letter url o) (below 64) = true) by (subst e; destruct url; vm_compute; reflexivity).
    apply N.eqb_eq. exact (all_below _ 64 G o Ho). }
  unfold b64_encode. generalize 0 at 2 as w. revert Hs. induction s as [|a|a b|a b c s IH] using list_three; intros Hs w.
  - reflexivity.
  - apply bytes_ok_cons in Hs as [Ha _]. rewrite enc_one by assumption. cbn [rfc4648]. rewrite !Hl by lia. destruct padding; reflexivity.
  - apply bytes_ok_cons in Hs as [Ha Hs]. apply bytes_ok_cons in Hs as [Hb _]. rewrite enc_two by assumption. cbn [rfc4648]. rewrite !Hl by lia. destruct padding; reflexivity.
  - apply bytes_ok_cons in Hs as [Ha Hs]. apply bytes_ok_cons in Hs as [Hb Hs]. apply bytes_ok_cons in Hs as [Hc Hs].
    destruct (enc_three e padding a b c s w Ha Hb Hc) as [w' ->]. cbn [rfc4648]. rewrite !Hl by lia. cbn [app]. now rewrite IH.
Qed.
(* two digits for each byte, the higher first *)
Theorem C42_hex_format : forall s, bytes_ok s = true ->
  bytes_to_hex s = flat_map (fun b => [hex_digit (b / 16); hex_digit (b mod 16)]) s.
Proof.
  induction s as [|b s IH]; intros Hs; [reflexivity|]. apply bytes_ok_cons in Hs as [Hb Hs]. cbn [bytes_to_hex flat_map]. f_equal; [|now apply IH].
  assert (G : forallb (fun b => beq [nth (N.to_nat (N.shiftr (N.land b 240) 4)) nibbles 0; nth (N.to_nat (N.land b 15)) nibbles 0]
                                   [hex_digit (b / 16); hex_digit (b mod 16)]) (below 256) = true) by (vm_compute; reflexivity).
  apply beq_eq. exact (all_below _ 256 G b Hb).
Qed.
(* integers: eight or four bytes, most or least significant first *)
Theorem C42_integer_format : forall v,
  (v < 2 ^ 64 -> length (be64 v) = 8%nat /\ bytes_ok (be64 v) = true /\ value (be64 v) = v) /\
  (v < 2 ^ 32 -> length (be32 v) = 4%nat /\ bytes_ok (be32 v) = true /\ value (be32 v) = v) /\
  (v < 2 ^ 64 -> length (le64 v) = 8%nat /\ bytes_ok (le64 v) = true /\ value (rev (le64 v)) = v).
Proof.
  intros v. assert (B : forall k, byte_at v k = v / 2 ^ (8 * k) mod 256).
  { intros k. unfold byte_at. now rewrite shr. }
  assert (K : forall k, byte_at v k < 256) by (intros k; rewrite B; apply N.mod_lt; discriminate).
  assert (S : forall k, v / 2 ^ (8 * (k + 1)) * 256 + byte_at v k = v / 2 ^ (8 * k)).
  { intros k. rewrite B. replace (2 ^ (8 * (k + 1))) with (2 ^ (8 * k) * 256) by (rewrite N.mul_add_distr_l, N.pow_add_r; reflexivity).
    rewrite <- N.div_div; [|apply N.pow_nonzero; discriminate|discriminate]. rewrite N.mul_comm. symmetry. apply N.div_mod. discriminate. }
  pose proof (S 0) as S0. pose proof (S 1) as S1. pose proof (S 2) as S2. pose proof (S 3) as S3.
  pose proof (S 4) as S4. pose proof (S 5) as S5. pose proof (S 6) as S6. pose proof (S 7) as S7.
  change (0 + 1) with 1 in S0. change (1 + 1) with 2 in S1. change (2 + 1) with 3 in S2. change (3 + 1) with 4 in S3.
  change (4 + 1) with 5 in S4. change (5 + 1) with 6 in S5. change (6 + 1) with 7 in S6. change (7 + 1) with 8 in S7.
  change (8 * 0) with 0 in S0. rewrite N.pow_0_r, N.div_1_r in S0.
  split; [|split]; intros Hv; (split; [reflexivity|]); (split; [unfold be64, be32, le64; rewrite !bytes_ok_cons; repeat split; apply K|]);
    unfold value, be64, be32, le64; cbn [rev app fold_left].
  - assert (Z : v / 2 ^ (8 * 8) = 0) by (apply N.div_small; exact Hv). rewrite Z in S7. now rewrite S7, S6, S5, S4, S3, S2, S1, S0.
  - assert (Z : v / 2 ^ (8 * 4) = 0) by (apply N.div_small; exact Hv). rewrite Z in S3. now rewrite S3, S2, S1, S0.
  - assert (Z : v / 2 ^ (8 * 8) = 0) by (apply N.div_small; exact Hv). rewrite Z in S7. now rewrite S7, S6, S5, S4, S3, S2, S1, S0.
Qed.

Print Assumptions C42_hex_roundtrip.
Print Assumptions C42_hex_accepts.
Print Assumptions C42_base64_roundtrip.
Print Assumptions C42_base64_accepts.
Print Assumptions C42_integers_roundtrip.
Print Assumptions C43_equals_is_equality.
Print Assumptions C43_never_crashes.
Print Assumptions C43_accesses_depend_on_length_only.
Print Assumptions C44_table_bounds_refuted.
Print Assumptions C44_seven_bit_partial.
Print Assumptions C47_parse_is_strict.
Print Assumptions C47_roundtrip.
Print Assumptions C47_valid_is_nonzero.
Print Assumptions C47_total_order.
Print Assumptions C42_base64_is_rfc4648.
Print Assumptions C42_hex_format.
Print Assumptions C42_integer_format.
