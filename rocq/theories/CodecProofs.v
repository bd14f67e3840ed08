From Verif Require Import Codec CodecSpec UtilProofs.

Definition below (n : nat) : list N := map N.of_nat (seq 0 n).
Lemma in_below n x : x < N.of_nat n -> In x (below n).
Proof. intros H. apply in_map_iff. exists (N.to_nat x). split; [lia|]. apply in_seq. lia. Qed.
Lemma all_below (P : N -> bool) n : forallb P (below n) = true -> forall x, x < N.of_nat n -> P x = true.
Proof. intros H x Hx. rewrite forallb_forall in H. apply H. now apply in_below. Qed.

Definition is_ok_byte (b : N) : Prop := b < 256.
Lemma bytes_ok_cons b s : bytes_ok (b :: s) = true <-> b < 256 /\ bytes_ok s = true.
Proof. cbn. unfold byte_ok. rewrite andb_true_iff. split; intros [H1 H2]; split; auto; lia. Qed.

(* --- hex ------------------------------------------------------------------ *)
Definition hex_pair (b : N) : bytes := [nth (N.to_nat (N.shiftr (N.land b 240) 4)) nibbles 0; nth (N.to_nat (N.land b 15)) nibbles 0].
Lemma hex_pair_roundtrip b : b < 256 -> match hex_pair b with
  | [c1; c2] => hex_nibble c1 <> 255 /\ hex_nibble c2 <> 255 /\ N.lor (N.shiftl (hex_nibble c1) 4) (hex_nibble c2) mod 256 = b /\ is_hex_digit c1 /\ is_hex_digit c2 | _ => False end.
Proof.
  intros Hb.
  pose proof (all_below (fun b => match hex_pair b with [c1; c2] =>
    negb (hex_nibble c1 =? 255) && negb (hex_nibble c2 =? 255) && (N.lor (N.shiftl (hex_nibble c1) 4) (hex_nibble c2) mod 256 =? b)
    && (((48 <=? c1) && (c1 <=? 57)) || ((97 <=? c1) && (c1 <=? 102)) ) && (((48 <=? c2) && (c2 <=? 57)) || ((97 <=? c2) && (c2 <=? 102)) )
    | _ => false end)%bool 256 ltac:(vm_compute; reflexivity) b Hb) as H.
  cbv beta in H. destruct (hex_pair b) as [|c1 [|c2 [|]]]; try discriminate.
  set (v := N.lor _ _ mod 256) in *. unfold is_hex_digit. lia.
Qed.
Lemma hex_loop_enc s : bytes_ok s = true -> hex_loop (bytes_to_hex s) = Hex_OK s.
Proof.
  induction s as [|b s IH]; intros H; [reflexivity|]. apply bytes_ok_cons in H as [Hb Hs].
  unfold bytes_to_hex. cbn [flat_map]. fold (hex_pair b). fold (bytes_to_hex s).
  pose proof (hex_pair_roundtrip b Hb) as H. destruct (hex_pair b) as [|c1 [|c2 [|]]]; try contradiction.
  destruct H as [H1 [H2 [H3 _]]]. cbn [app hex_loop]. rewrite IH by assumption.
  destruct (hex_nibble c1 =? 255) eqn:E1; [lia|]. destruct (hex_nibble c2 =? 255) eqn:E2; [lia|]. cbn [orb]. now rewrite H3.
Qed.
Lemma hex_len s : length (bytes_to_hex s) = (2 * length s)%nat.
Proof.
  induction s as [|b s IH]; [reflexivity|]. unfold bytes_to_hex in *. cbn [flat_map app length]. rewrite IH. lia.
Qed.
Lemma hex_roundtrip s : bytes_ok s = true -> hex_to_bytes (bytes_to_hex s) = Hex_OK s.
Proof.
  intros H. unfold hex_to_bytes, blen. rewrite hex_len. replace (N.of_nat (2 * length s) mod 2) with 0 by lia. cbn [N.eqb negb].
  now apply hex_loop_enc.
Qed.
Lemma hex_digit_nibble c : is_hex_digit c <-> hex_nibble c <> 255.
Proof.
  unfold is_hex_digit, hex_nibble. repeat (destruct (_ && _)%bool eqn:? in |- *); lia.
Qed.
Lemma hex_digit_small c : is_hex_digit c -> c < 128.
Proof. unfold is_hex_digit; lia. Qed.
Lemma hex_two c1 c2 : is_hex_digit c1 -> is_hex_digit c2 ->
  hex_pair (N.lor (N.shiftl (hex_nibble c1) 4) (hex_nibble c2) mod 256) = [lower c1; lower c2].
Proof.
  intros H1 H2.
  assert (HH : forall n, (exists x, x < 16 /\ n = x) -> n < 16) by (intros n [x [Hx ->]]; assumption).
  assert (Hn : forall c, is_hex_digit c -> hex_nibble c < 16 /\ nth (N.to_nat (hex_nibble c)) nibbles 0 = lower c).
  { intros c Hc. pose proof (hex_digit_small c Hc) as Hs. apply hex_digit_nibble in Hc.
    pose proof (all_below (fun c => ((hex_nibble c =? 255) || ((hex_nibble c <? 16) && (nth (N.to_nat (hex_nibble c)) nibbles 0 =? lower c)))%bool) 128
      ltac:(vm_compute; reflexivity) c Hs) as H. cbv beta in H. lia. }
  destruct (Hn c1 H1) as [L1 E1], (Hn c2 H2) as [L2 E2].
  assert (E : forall a b, a < 16 -> b < 16 -> hex_pair (N.lor (N.shiftl a 4) b mod 256) = [nth (N.to_nat a) nibbles 0; nth (N.to_nat b) nibbles 0]).
  { intros a b Ha Hb.
    pose proof (all_below (fun a => forallb (fun b => beq (hex_pair (N.lor (N.shiftl a 4) b mod 256)) [nth (N.to_nat a) nibbles 0; nth (N.to_nat b) nibbles 0]) (below 16)) 16
      ltac:(vm_compute; reflexivity) a Ha) as H. cbv beta in H. rewrite forallb_forall in H. apply beq_eq, H. now apply in_below. }
  now rewrite E, E1, E2.
Qed.
Lemma list_two {A} (P : list A -> Prop) : P [] -> (forall x, P [x]) -> (forall x y l, P l -> P (x :: y :: l)) -> forall l, P l.
Proof.
  intros H0 H1 H2 l. assert (P l /\ forall x, P (x :: l)) as [H _]; [|assumption]. induction l as [|y l [IH1 IH2]]; split; auto.
Qed.
Lemma hex_loop_iff s : forall o, Nat.Even (length s) ->
  (hex_loop s = Hex_OK o <-> (forall c, In c s -> is_hex_digit c) /\ bytes_to_hex o = map lower s /\ bytes_ok o = true).
Proof.
  induction s as [|x|c1 c2 s IH] using list_two; intros o He.
  - cbn. split; [intros E; injection E as <-; repeat split; contradiction|]. intros [_ [H _]]. destruct o; [reflexivity|discriminate].
  - destruct He as [k Hk]. cbn in Hk. lia.
  - assert (He' : Nat.Even (length s)) by (destruct He as [k Hk]; exists (k - 1)%nat; cbn in Hk; lia).
    cbn [hex_loop]. destruct ((hex_nibble c1 =? 255) || (hex_nibble c2 =? 255))%bool eqn:E.
    { split; [discriminate|]. intros [H _]. pose proof (proj1 (hex_digit_nibble c1) (H c1 (or_introl eq_refl))).
      pose proof (proj1 (hex_digit_nibble c2) (H c2 (or_intror (or_introl eq_refl)))). lia. }
    assert (H1 : is_hex_digit c1) by (apply hex_digit_nibble; lia). assert (H2 : is_hex_digit c2) by (apply hex_digit_nibble; lia).
    pose proof (hex_two c1 c2 H1 H2) as Hp. set (b := N.lor _ _ mod 256) in *.
    assert (Hb : b < 256) by (apply N.mod_lt; discriminate).
    split.
    + destruct (hex_loop s) as [o'| |] eqn:El; intros Eo; try discriminate. injection Eo as <-.
      destruct (proj1 (IH o' He') eq_refl) as [Ha [Hh Hok]]. split; [intros c [<-|[<-|Hc]]; auto|].
      split; [|apply bytes_ok_cons; auto]. unfold bytes_to_hex. cbn [flat_map map]. fold (hex_pair b). fold (bytes_to_hex o'). rewrite Hp, Hh. reflexivity.
    + intros [Ha [Hh Hok]]. destruct o as [|b' o']; [discriminate|]. apply bytes_ok_cons in Hok as [Hb' Hok].
      unfold bytes_to_hex in Hh. cbn [flat_map map] in Hh. fold (hex_pair b') (bytes_to_hex o') in Hh.
      assert (Heq : hex_pair b' = hex_pair b /\ bytes_to_hex o' = map lower s).
      { rewrite Hp. destruct (hex_pair b') as [|x [|y [|]]] eqn:Ex; try discriminate Ex. cbn [app] in Hh.
        assert (E1 : x = lower c1) by congruence. assert (E2 : y = lower c2) by congruence. split; congruence. }
      destruct Heq as [Hpp Hh'].
      assert (b' = b). { pose proof (hex_pair_roundtrip b' Hb') as R1. pose proof (hex_pair_roundtrip b Hb) as R2. rewrite Hpp in R1.
        destruct (hex_pair b) as [|x [|y [|]]]; try contradiction. destruct R1 as [_ [_ [R1 _]]], R2 as [_ [_ [R2 _]]]. congruence. } subst b'.
      rewrite (proj2 (IH o' He')); [reflexivity|]. repeat split; auto. intros c Hc. apply Ha. cbn; auto.
Qed.

(* --- base64 --------------------------------------------------------------- *)
Definition good (e : b64enc) : Prop :=
  length (b64_decode_table e) = 256%nat /\
  (forall o, o < 64 -> let c := nth (N.to_nat o) (b64_alphabet e) 0 in
     c < 128 /\ c <> pad_char /\ nth_error (b64_decode_table e) (N.to_nat c) = Some (Z.of_N o)) /\
  (forall c, c < 256 -> exists v, nth_error (b64_decode_table e) (N.to_nat c) = Some v /\
     (v = (-1)%Z \/ (0 <= v < 64)%Z /\ nth (Z.to_nat v) (b64_alphabet e) 0 = c)) /\
  length (b64_alphabet e) = 64%nat.
Definition good_b (e : b64enc) : bool :=
  (Nat.eqb (length (b64_decode_table e)) 256 && Nat.eqb (length (b64_alphabet e)) 64 &&
   forallb (fun o => let c := nth (N.to_nat o) (b64_alphabet e) 0 in
     (c <? 128) && negb (c =? pad_char) && match nth_error (b64_decode_table e) (N.to_nat c) with Some v => Z.eqb v (Z.of_N o) | None => false end) (below 64) &&
   forallb (fun c => match nth_error (b64_decode_table e) (N.to_nat c) with
     | Some v => (Z.eqb v (-1)) || ((Z.leb 0 v) && (Z.ltb v 64) && (nth (Z.to_nat v) (b64_alphabet e) 0 =? c)) | None => false end) (below 256))%bool.
Lemma good_b_good e : good_b e = true -> good e.
Proof.
  unfold good_b, good. rewrite !andb_true_iff. intros [[[H1 H2] H3] H4]. apply Nat.eqb_eq in H1, H2. repeat split; auto.
  - pose proof (all_below _ _ H3 o H) as E. cbv beta zeta in E. rewrite !andb_true_iff in E. destruct E as [[E _] _]. lia.
  - pose proof (all_below _ _ H3 o H) as E. cbv beta zeta in E. rewrite !andb_true_iff in E. destruct E as [[_ E] _]. lia.
  - pose proof (all_below _ _ H3 o H) as E. cbv beta zeta in E. rewrite !andb_true_iff in E. destruct E as [_ E].
    destruct (nth_error _ _); [|discriminate]. f_equal. lia.
  - intros c Hc. pose proof (all_below _ _ H4 c Hc) as E. cbv beta in E. destruct (nth_error _ _) as [v|]; [|discriminate].
    exists v. split; [reflexivity|]. destruct (Z.eqb v (-1)) eqn:Ev; [left; lia|right]. cbn [orb] in E. rewrite !andb_true_iff in E.
    destruct E as [[E1 E2] E3]. split; lia.
Qed.
Lemma good_std : good b64std. Proof. apply good_b_good. vm_compute. reflexivity. Qed.
Lemma good_url : good b64url. Proof. apply good_b_good. vm_compute. reflexivity. Qed.

Lemma push6 acc v : v < 64 -> N.lor (N.shiftl acc 6) v mod 2 ^ 16 = (acc * 64 + v) mod 65536.
Proof. intros H. rewrite N.shiftl_mul_pow2. rewrite (lor_disjoint _ _ 6); [reflexivity| |assumption]. apply N.mod_mul. discriminate. Qed.
Lemma push8 w b : b < 256 -> N.lor (N.shiftl w 8) b mod 2 ^ 16 = (w * 256 + b) mod 65536.
Proof. intros H. rewrite N.shiftl_mul_pow2. rewrite (lor_disjoint _ _ 8); [reflexivity| |assumption]. apply N.mod_mul. discriminate. Qed.
Lemma land63 x : N.land x 63 = x mod 64.
Proof. change 63 with (N.ones 6). now rewrite N.land_ones. Qed.
Lemma shr x k : N.shiftr x k = x / 2 ^ k.
Proof. apply N.shiftr_div_pow2. Qed.

Section B64.
Variable e : b64enc.
Hypothesis He : good e.
Definition ch (o : N) : N := nth (N.to_nat o) (b64_alphabet e) 0.

Lemma enc_three pad a b c s w : a < 256 -> b < 256 -> c < 256 -> exists w',
  b64_enc_loop e pad (a :: b :: c :: s) 0 w =
  [ch (a / 4); ch (a mod 4 * 16 + b / 16); ch (b mod 16 * 4 + c / 64); ch (c mod 64)] ++ b64_enc_loop e pad s 0 w'.
Proof.
  intros Ha Hb Hc. cbn [b64_enc_loop]. rewrite !push8 by assumption.
  change (N.to_nat ((0 + 8) / 6)) with 1%nat. change ((0 + 8) mod 6) with 2. change (N.to_nat ((2 + 8) / 6)) with 1%nat.
  change ((2 + 8) mod 6) with 4. change (N.to_nat ((4 + 8) / 6)) with 2%nat. change ((4 + 8) mod 6) with 0.
  cbn [b64_emit app]. rewrite !land63, !shr.
  change (0 + 8 - 6) with 2. change (2 + 8 - 6) with 4. change (4 + 8 - 6) with 6. change (6 - 6) with 0.
  change (2 ^ 2) with 4. change (2 ^ 4) with 16. change (2 ^ 6) with 64. change (2 ^ 0) with 1.
  unfold ch. eexists. f_equal; [|f_equal; [|f_equal; [|f_equal]]]; f_equal; f_equal; lia.
Qed.
Lemma enc_two pad a b w : a < 256 -> b < 256 ->
  b64_enc_loop e pad [a; b] 0 w =
  [ch (a / 4); ch (a mod 4 * 16 + b / 16); ch (b mod 16 * 4)] ++ (if pad then [pad_char] else []).
Proof.
  intros Ha Hb. cbn [b64_enc_loop]. rewrite !push8 by assumption.
  change (N.to_nat ((0 + 8) / 6)) with 1%nat. change ((0 + 8) mod 6) with 2. change (N.to_nat ((2 + 8) / 6)) with 1%nat.
  change ((2 + 8) mod 6) with 4. cbn [N.eqb Pos.eqb].
  cbn [b64_emit app]. rewrite !land63, !shr, N.shiftl_mul_pow2.
  change (0 + 8 - 6) with 2. change (2 + 8 - 6) with 4. change (6 - 4) with 2.
  change (2 ^ 2) with 4. change (2 ^ 4) with 16. change (2 ^ 16) with 65536.
  unfold ch. f_equal; [|f_equal; [|f_equal]]; f_equal; f_equal; lia.
Qed.
Lemma enc_one pad a w : a < 256 ->
  b64_enc_loop e pad [a] 0 w = [ch (a / 4); ch (a mod 4 * 16)] ++ (if pad then [pad_char; pad_char] else []).
Proof.
  intros Ha. cbn [b64_enc_loop]. rewrite !push8 by assumption.
  change (N.to_nat ((0 + 8) / 6)) with 1%nat. change ((0 + 8) mod 6) with 2. cbn [N.eqb Pos.eqb].
  cbn [b64_emit app]. rewrite !land63, !shr, N.shiftl_mul_pow2.
  change (0 + 8 - 6) with 2. change (6 - 2) with 4.
  change (2 ^ 2) with 4. change (2 ^ 4) with 16. change (2 ^ 16) with 65536.
  unfold ch. f_equal; [|f_equal]; f_equal; f_equal; lia.
Qed.

Lemma dec_step o s i j acc bits : o < 64 -> b64_loop e (ch o :: s) i j acc bits =
  (if 8 <=? bits + 6 then
     if i <? j then Crash else
     match b64_loop e s (i + 1) (j + 1) ((acc * 64 + o) mod 65536) (bits + 6 - 8) with
     | Ret (B64_OK out) => Ret (B64_OK ((acc * 64 + o) mod 65536 / 2 ^ (bits + 6 - 8) mod 256 :: out))
     | r => r
     end
   else b64_loop e s (i + 1) j ((acc * 64 + o) mod 65536) (bits + 6)).
Proof.
  intros Ho. destruct He as [_ [H _]]. destruct (H o Ho) as [H1 [H2 H3]]. fold (ch o) in *. cbv zeta in *.
  cbn [b64_loop]. destruct (ch o =? pad_char) eqn:E1; [lia|]. destruct (128 <=? ch o) eqn:E2; [lia|]. rewrite H3.
  destruct (Z.eqb (Z.of_N o) (-1)) eqn:E3; [lia|]. rewrite N2Z.id, push6, shr by assumption. reflexivity.
Qed.
Lemma dec_pads i j acc bits n : b64_loop e (repeat pad_char n) i j acc bits = Ret (B64_OK []).
Proof.
  destruct n; [reflexivity|]. cbn [repeat b64_loop]. rewrite N.eqb_refl.
  replace (forallb _ (repeat pad_char n)) with true; [reflexivity|]. induction n; cbn; auto.
Qed.
Lemma dec_three a b c s i j acc : a < 256 -> b < 256 -> c < 256 -> j <= i -> exists acc',
  b64_loop e ([ch (a / 4); ch (a mod 4 * 16 + b / 16); ch (b mod 16 * 4 + c / 64); ch (c mod 64)] ++ s) i j acc 0 =
  match b64_loop e s (i + 4) (j + 3) acc' 0 with Ret (B64_OK out) => Ret (B64_OK (a :: b :: c :: out)) | r => r end.
Proof.
  intros Ha Hb Hc Hij. cbn [app].
  exists (((((acc * 64 + a / 4) mod 65536 * 64 + (a mod 4 * 16 + b / 16)) mod 65536 * 64 + (b mod 16 * 4 + c / 64)) mod 65536 * 64 + c mod 64) mod 65536).
  rewrite !dec_step by lia.
  change (8 <=? 0 + 6) with false. cbv iota. change (0 + 6 + 6) with 12. change (8 <=? 12) with true. cbv iota. change (12 - 8) with 4.
  change (4 + 6) with 10. change (8 <=? 10) with true. cbv iota. change (10 - 8) with 2. change (2 + 6) with 8. change (8 <=? 8) with true. cbv iota.
  change (8 - 8) with 0. change (2 ^ 4) with 16. change (2 ^ 2) with 4. change (2 ^ 0) with 1.
  destruct (i + 1 <? j) eqn:E1; [lia|]. destruct (i + 1 + 1 <? j + 1) eqn:E2; [lia|]. destruct (i + 1 + 1 + 1 <? j + 1 + 1) eqn:E3; [lia|].
  replace (i + 1 + 1 + 1 + 1) with (i + 4) by lia. replace (j + 1 + 1 + 1) with (j + 3) by lia.
  destruct (b64_loop e s (i + 4) (j + 3) _ 0) as [[o| |]|]; try reflexivity.
  f_equal. f_equal. f_equal; [|f_equal; [|f_equal]]; lia.
Qed.
Lemma dec_two a b n i j acc : a < 256 -> b < 256 -> j <= i ->
  b64_loop e ([ch (a / 4); ch (a mod 4 * 16 + b / 16); ch (b mod 16 * 4)] ++ repeat pad_char n) i j acc 0 = Ret (B64_OK [a; b]).
Proof.
  intros Ha Hb Hij. cbn [app]. rewrite !dec_step by lia. rewrite !dec_pads.
  change (8 <=? 0 + 6) with false. cbv iota. change (0 + 6 + 6) with 12. change (8 <=? 12) with true. cbv iota. change (12 - 8) with 4.
  change (4 + 6) with 10. change (8 <=? 10) with true. cbv iota. change (10 - 8) with 2.
  change (2 ^ 4) with 16. change (2 ^ 2) with 4.
  destruct (i + 1 <? j) eqn:E1; [lia|]. destruct (i + 1 + 1 <? j + 1) eqn:E2; [lia|].
  assert (E : forall x y, x = a -> y = b -> Ret (B64_OK [x; y]) = Ret (B64_OK [a; b])) by (intros; subst; reflexivity). apply E; lia.
Qed.
Lemma dec_one a n i j acc : a < 256 -> j <= i ->
  b64_loop e ([ch (a / 4); ch (a mod 4 * 16)] ++ repeat pad_char n) i j acc 0 = Ret (B64_OK [a]).
Proof.
  intros Ha Hij. cbn [app]. rewrite !dec_step by lia. rewrite !dec_pads.
  change (8 <=? 0 + 6) with false. cbv iota. change (0 + 6 + 6) with 12. change (8 <=? 12) with true. cbv iota. change (12 - 8) with 4.
  change (2 ^ 4) with 16. destruct (i + 1 <? j) eqn:E1; [lia|]. 
  assert (E : forall x, x = a -> Ret (B64_OK [x]) = Ret (B64_OK [a])) by (intros; subst; reflexivity). apply E; lia.
Qed.
Lemma list_three {A} (P : list A -> Prop) : P [] -> (forall x, P [x]) -> (forall x y, P [x; y]) ->
  (forall x y z l, P l -> P (x :: y :: z :: l)) -> forall l, P l.
Proof.
  intros H0 H1 H2 H3 l. assert (P l /\ (forall x, P (x :: l)) /\ (forall x y, P (x :: y :: l))) as [H _]; [|assumption].
  induction l as [|z l [IH1 [IH2 IH3]]]; split; auto.
Qed.
Lemma b64_loop_enc pad s : bytes_ok s = true -> forall w i j acc, j <= i ->
  b64_loop e (b64_enc_loop e pad s 0 w) i j acc 0 = Ret (B64_OK s).
Proof.
  induction s as [|a|a b|a b c s IH] using list_three; intros Hs w i j acc Hij.
  - reflexivity.
  - apply bytes_ok_cons in Hs as [Ha _]. rewrite enc_one by assumption.
    destruct pad; [apply (dec_one a 2)|apply (dec_one a 0)]; assumption.
  - apply bytes_ok_cons in Hs as [Ha Hs]. apply bytes_ok_cons in Hs as [Hb _]. rewrite enc_two by assumption.
    destruct pad; [apply (dec_two a b 1)|apply (dec_two a b 0)]; assumption.
  - apply bytes_ok_cons in Hs as [Ha Hs]. apply bytes_ok_cons in Hs as [Hb Hs]. apply bytes_ok_cons in Hs as [Hc Hs].
    destruct (enc_three pad a b c s w Ha Hb Hc) as [w' ->]. destruct (dec_three a b c (b64_enc_loop e pad s 0 w') i j acc Ha Hb Hc Hij) as [acc' ->].
    rewrite IH by (auto; lia). reflexivity.
Qed.
Lemma b64_roundtrip pad s : bytes_ok s = true -> b64_decode e (b64_encode e pad s) = Ret (B64_OK s).
Proof. intros H. apply b64_loop_enc; [assumption|lia]. Qed.

(* what the decoder accepts, and that it needs nothing but 7-bit characters *)
Lemma b64_loop_total s : forall i j acc bits, bits < 8 -> 8 * j + bits <= 6 * i -> (forall c, In c s -> c < 128) ->
  exists r, b64_loop e s i j acc bits = Ret r /\
  ((exists o, r = B64_OK o) <-> exists body n, s = body ++ repeat pad_char n /\ forall c, In c body -> In c (b64_alphabet e)).
Proof.
  destruct He as [_ [Henc [Hdec Hlen]]].
  assert (Hpad : ~ In pad_char (b64_alphabet e)).
  { intros Hin. apply (In_nth _ _ 0) in Hin as [k [Hk Ek]]. rewrite Hlen in Hk.
    destruct (Henc (N.of_nat k) ltac:(lia)) as [_ [H _]]. rewrite Nat2N.id in H. auto. }
  induction s as [|c s IH]; intros i j acc bits Hb Hij Hs.
  { eexists. split; [reflexivity|]. split; [|eauto]. intros _. exists [], O. split; [reflexivity|contradiction]. }
  cbn [b64_loop]. destruct (c =? pad_char) eqn:Ep.
  { assert (c = pad_char) by lia. subst c. destruct (forallb _ s) eqn:Ef.
    - eexists. split; [reflexivity|]. split; [|eauto]. intros _. exists [], (S (length s)). split; [|contradiction]. cbn. f_equal.
      rewrite forallb_forall in Ef. clear -Ef. induction s as [|x s IH]; [reflexivity|]. cbn. rewrite <- IH by (intros; apply Ef; now right).
      specialize (Ef x (or_introl eq_refl)). f_equal. lia.
    - eexists. split; [reflexivity|]. split; [intros [o Ho]; discriminate|]. intros [body [n [E Hbody]]]. exfalso.
      destruct body as [|x body]; [|cbn in E; injection E as Ex _; apply Hpad, Hbody; left; congruence].
      cbn in E. destruct n; [discriminate|]. cbn in E. injection E as ->. clear -Ef. induction n as [|n IH]; [discriminate|].
      cbn in Ef. auto. }
  assert (Hc : c < 128) by (apply Hs; now left). destruct (128 <=? c) eqn:E1; [lia|].
  destruct (Hdec c ltac:(lia)) as [v [Ev Hv]]. rewrite Ev.
  destruct (Z.eqb v (-1)) eqn:E2.
  { eexists. split; [reflexivity|]. split; [intros [o Ho]; discriminate|]. intros [body [n [E Hbody]]]. exfalso.
    assert (Hca : In c (b64_alphabet e)).
    { destruct body as [|x body]; cbn in E; [destruct n; cbn in E; [discriminate|injection E as -> _; lia]|].
      injection E as -> _. apply Hbody. now left. }
    apply (In_nth _ _ 0) in Hca as [k [Hk Ek]]. rewrite Hlen in Hk. destruct (Henc (N.of_nat k) ltac:(lia)) as [_ [_ H]].
    rewrite Nat2N.id, Ek, Ev in H. injection H as H. lia. }
  destruct Hv as [Hv|[Hv Hch]]; [lia|].
  assert (Hca : In c (b64_alphabet e)) by (rewrite <- Hch; apply nth_In; lia).
  assert (Hext : (exists body n, c :: s = body ++ repeat pad_char n /\ forall x, In x body -> In x (b64_alphabet e)) <->
    exists body n, s = body ++ repeat pad_char n /\ forall x, In x body -> In x (b64_alphabet e)).
  { split.
    - intros [body [n [E Hbody]]]. destruct body as [|x body]; cbn in E; [destruct n; cbn in E; [discriminate|injection E as -> _; lia]|].
      injection E as -> ->. exists body, n. split; [reflexivity|]. intros y Hy. apply Hbody. now right.
    - intros [body [n [-> Hbody]]]. exists (c :: body), n. split; [reflexivity|]. intros y [<-|Hy]; auto. }
  setoid_rewrite Hext. cbv zeta. destruct (8 <=? bits + 6) eqn:E3.
  - destruct (i <? j) eqn:E4; [lia|].
    destruct (IH (i + 1) (j + 1) (N.lor (N.shiftl acc 6) (Z.to_N v) mod 2 ^ 16) (bits + 6 - 8) ltac:(lia) ltac:(lia) ltac:(intros; apply Hs; now right)) as [r [-> Hr]].
    destruct r as [o| |]; (eexists; split; [reflexivity|]); rewrite <- Hr; split; intros [o' Ho]; try discriminate; eauto.
  - destruct (IH (i + 1) j (N.lor (N.shiftl acc 6) (Z.to_N v) mod 2 ^ 16) (bits + 6) ltac:(lia) ltac:(lia) ltac:(intros; apply Hs; now right)) as [r [-> Hr]].
    eauto.
Qed.
End B64.

(* --- order ---------------------------------------------------------------- *)
Lemma blt_total a b : blt a b = true \/ a = b \/ blt b a = true.
Proof.
  unfold blt. rewrite (bcmp_antisym a b). destruct (bcmp a b) eqn:E; cbn; auto. right; left. now apply bcmp_eq.
Qed.
