(* Proofs about credentials. *)
From Verif Require Import HostAuthSpec.

(* --- splitting ---------------------------------------------------------------- *)
Lemma split_spec s a b : split_colon s = Some (a, b) <-> s = a ++ colon :: b /\ ~ In colon a.
Proof.
  revert a b. induction s as [|c s IH]; intros a b; cbn.
  - split; [discriminate|]. intros [H _]. destruct a; discriminate.
  - destruct (N.eqb_spec c colon) as [->|Hc].
    + split; [intros X; injection X as <- <-; auto|]. intros [H Hn]. destruct a as [|x a]; [injection H as E2; now subst|]. injection H as E1 E2. exfalso. apply Hn. now left.
    + destruct (split_colon s) as [[a0 b0]|] eqn:E.
      * destruct (proj1 (IH a0 b0) eq_refl) as [E1 E2]. split.
        -- intros X; injection X as <- <-. split; [now rewrite E1|]. intros [H|H]; auto.
        -- intros [H Hn]. destruct a as [|x a]; injection H as H1 H2; [congruence|]. subst x.
           assert (X : Some (a0, b0) = Some (a, b)) by (apply IH; split; [assumption|]; intros X; apply Hn; now right). injection X as -> ->. reflexivity.
      * split; [discriminate|]. intros [H Hn]. destruct a as [|x a]; injection H as H1 H2; [congruence|].
        assert (X : None = Some (a, b)) by (apply IH; split; [assumption|]; intros X; apply Hn; now right). discriminate.
Qed.
Lemma last_colon u v a b : ~ In colon a -> ~ In colon b -> u ++ colon :: a = v ++ colon :: b -> u = v /\ a = b.
Proof.
  revert v. induction u as [|c u IH]; intros v Ha Hb E.
  - destruct v as [|d v]; cbn in E; [injection E as E; auto|]. injection E as E1 E2. exfalso. apply Ha. rewrite E2. apply in_or_app. right. now left.
  - destruct v as [|d v]; cbn in E.
    + injection E as -> E. exfalso. apply Hb. rewrite <- E. apply in_or_app. right. now left.
    + injection E as -> E. destruct (IH v Ha Hb E) as [-> ->]. auto.
Qed.

(* --- numerals ------------------------------------------------------------------- *)
Lemma value_snoc ds c : value (ds ++ [c]) = (10 * value ds + (Z.of_N c - 48))%Z.
Proof. unfold value. now rewrite fold_left_app. Qed.
Lemma parse_digits_spec s : forall a n, parse_digits a s = Some n <-> Forall (fun c => 48 <= c <= 57) s /\ Z.of_N n = fold_left (fun a c => (10 * a + (Z.of_N c - 48))%Z) s (Z.of_N a).
Proof.
  induction s as [|c s IH]; intros a n; cbn [parse_digits fold_left].
  - split; [intros X; injection X as <-; auto|]. intros [_ X]. f_equal. lia.
  - destruct ((48 <=? c) && (c <=? 57))%bool eqn:E.
    + rewrite IH. replace (Z.of_N (10 * a + (c - 48))) with (10 * Z.of_N a + (Z.of_N c - 48))%Z by lia.
      split; intros [H1 H2]; split; auto; [constructor; [lia|assumption]|now inversion H1].
    + split; [discriminate|]. intros [H _]. inversion H as [|? ? Hc _]; subst. lia.
Qed.
Lemma parse_uint_spec s n : parse_uint s = Some n <-> numeric s /\ Z.of_N n = value s.
Proof.
  unfold parse_uint, numeric, value. destruct s as [|c s]; [split; [discriminate|]; intros [[H _] _]; congruence|].
  rewrite parse_digits_spec. split; [intros [H1 H2]; repeat split; auto; discriminate|tauto].
Qed.
Lemma value_nonneg ds : numeric ds -> (0 <= value ds)%Z.
Proof.
  intros [_ H]. unfold value. assert (G : forall a, (0 <= a)%Z -> (0 <= fold_left (fun a c => (10 * a + (Z.of_N c - 48))%Z) ds a)%Z); [|apply G; lia].
  induction H as [|c ds Hc H IH]; intros a Ha; cbn [fold_left]; [assumption|]. cbv beta in Hc. apply IH. lia.
Qed.
Lemma numeric_parse s : numeric s -> exists n, parse_uint s = Some n /\ Z.of_N n = value s.
Proof. intros H. exists (Z.to_N (value s)). pose proof (value_nonneg s H). assert (E : Z.of_N (Z.to_N (value s)) = value s) by lia. split; [apply parse_uint_spec|]; auto. Qed.
Lemma parse_int_spec s z : parse_int s = Some z <-> numeral s z /\ int64 z.
Proof.
  unfold int64. change (2 ^ 63)%Z with 9223372036854775808%Z. destruct s as [|c s].
  - split; [discriminate|]. unfold numeral. intros [[[[H _] _]|[(ds & H & _)|(ds & H & _)]] _]; congruence.
  - cbn [parse_int]. change (2 ^ 63) with 9223372036854775808.
    destruct (N.eqb_spec c 43) as [->|H43]; [|destruct (N.eqb_spec c 45) as [->|H45]]; cbn [orb negb andb N.eqb Pos.eqb].
    + (* plus *)
      split.
      * destruct (parse_uint s) as [n|] eqn:E; [|discriminate]. destruct (9223372036854775808 <=? n) eqn:El; [discriminate|]. intros X. injection X as <-.
        apply parse_uint_spec in E as [E1 E2]. split; [right; left; exists s; auto|]. pose proof (value_nonneg s E1). lia.
      * intros [[[[_ H] _]|[(ds & H & H1 & ->)|(ds & H & _)]] Hi]; [inversion H; lia| |discriminate].
        injection H as ->. destruct (numeric_parse ds H1) as (n & -> & En). destruct (9223372036854775808 <=? n) eqn:El; [lia|]. now rewrite En.
    + (* minus *)
      split.
      * destruct (parse_uint s) as [n|] eqn:E; [|discriminate]. destruct (9223372036854775808 <? n) eqn:El; [discriminate|]. intros X. injection X as <-.
        apply parse_uint_spec in E as [E1 E2]. pose proof (value_nonneg s E1). split; [right; right; exists s; rewrite E2; auto|]. lia.
      * intros [[[[_ H] _]|[(ds & H & _)|(ds & H & H1 & ->)]] Hi]; [inversion H; lia|discriminate|].
        injection H as ->. destruct (numeric_parse ds H1) as (n & -> & En). destruct (9223372036854775808 <? n) eqn:El; [lia|]. now rewrite En.
    + split.
      * destruct (parse_uint (c :: s)) as [n|] eqn:E; [|discriminate]. destruct (9223372036854775808 <=? n) eqn:El; [discriminate|]. intros X. injection X as <-.
        apply parse_uint_spec in E as [E1 E2]. pose proof (value_nonneg _ E1). split; [left; auto|]. lia.
      * intros [[[H ->]|[(ds & H & _)|(ds & H & _)]] Hi]; [|congruence|congruence].
        destruct (numeric_parse _ H) as (n & -> & En). destruct (9223372036854775808 <=? n) eqn:El; [lia|]. now rewrite En.
Qed.
Lemma log2_div10 n : 10 <= n -> (N.to_nat (N.log2 (n / 10)) < N.to_nat (N.log2 n))%nat.
Proof.
  intros H. assert (Hd : n / 10 <= n / 2) by (apply N.div_le_compat_l; lia). apply N.log2_le_mono in Hd.
  assert (E : N.log2 (n / 2) = N.log2 n - 1).
  { change (n / 2) with (n / 2 ^ 1). rewrite <- N.shiftr_div_pow2. apply N.log2_shiftr. }
  assert (1 <= N.log2 n) by (change 1 with (N.log2 2); apply N.log2_le_mono; lia). lia.
Qed.
Lemma dec_n_spec f : forall n, (N.to_nat (N.log2 n) < f)%nat -> numeric (dec_n f n) /\ leading (dec_n f n) /\ value (dec_n f n) = Z.of_N n /\ (10 <= n -> hd 48 (dec_n f n) <> 48).
Proof.
  induction f as [|f IH]; intros n Hf; [lia|]. cbn [dec_n]. destruct (N.ltb_spec n 10) as [H|H].
  - repeat split; [discriminate|repeat constructor; lia| |unfold value; cbn [fold_left]; lia|lia].
    unfold leading. cbn [hd]. destruct (N.eq_dec n 0) as [->|]; [left; reflexivity|right; lia].
  - pose proof (log2_div10 n H). destruct (IH (n / 10)) as ((H1 & H1') & H2 & H3 & H4); [lia|].
    assert (Hm : n mod 10 < 10) by (apply N.mod_lt; lia). pose proof (N.div_mod n 10 ltac:(lia)) as Hdm.
    assert (Hpos : 1 <= n / 10) by (apply N.div_le_lower_bound; lia).
    assert (Hhd : hd 48 (dec_n f (n / 10) ++ [48 + n mod 10]) <> 48).
    { destruct (dec_n f (n / 10)) as [|c ds] eqn:E; [congruence|]. cbn [app hd].
      destruct (N.lt_ge_cases (n / 10) 10) as [Hs|Hs]; [|apply (H4 Hs)].
      destruct H2 as [H2|H2]; [|exact H2]. rewrite H2 in H3. cbn in H3. lia. }
    repeat split; auto.
    + destruct (dec_n f (n / 10)); discriminate.
    + apply Forall_app. split; [assumption|]. repeat constructor; lia.
    + right. assumption.
    + rewrite value_snoc, H3. lia.
Qed.
Lemma dec_usual z : usual (dec z) z.
Proof.
  unfold dec, usual. destruct (Z.ltb_spec z 0) as [H|H].
  - right. match goal with |- context [dec_n ?f ?n] => destruct (dec_n_spec f n) as (H1 & H2 & H3 & _); [lia|] end.
    eexists. split; [reflexivity|]. rewrite H3. repeat split; try apply H1; auto; lia.
  - left. match goal with |- context [dec_n ?f ?n] => destruct (dec_n_spec f n) as (H1 & H2 & H3 & _); [lia|] end.
    rewrite H3. repeat split; try apply H1; auto; lia.
Qed.
Lemma usual_numeral t z : usual t z -> numeral t z.
Proof. intros [(H1 & _ & H2)|(ds & H1 & H2 & _ & H3 & _)]; [left; auto|right; right; eauto]. Qed.
Lemma no_colon t z : usual t z -> ~ In colon t.
Proof.
  assert (G : forall ds, numeric ds -> ~ In colon ds) by (intros ds [_ H] X; rewrite Forall_forall in H; apply H in X; unfold colon in X; lia).
  intros [(H1 & _)|(ds & -> & H1 & _)]; [auto|]. intros [X|X]; [discriminate|]. eapply G; eauto.
Qed.
(* the usual numeral is unique *)
Lemma value_lt ds d : Forall (fun c => 48 <= c <= 57) ds -> fold_left (fun a c => (10 * a + (Z.of_N c - 48))%Z) ds d = (d * 10 ^ Z.of_nat (length ds) + value ds)%Z.
Proof.
  intros H. revert d. unfold value. induction H as [|c ds Hc H IH]; intros d; [cbn; lia|].
  cbn [fold_left length]. rewrite IH, (IH (10 * 0 + _)%Z). rewrite Nat2Z.inj_succ, Z.pow_succ_r by lia. ring.
Qed.
Lemma value_cons c ds : Forall (fun c => 48 <= c <= 57) ds -> value (c :: ds) = ((Z.of_N c - 48) * 10 ^ Z.of_nat (length ds) + value ds)%Z.
Proof. intros H. unfold value at 1. cbn [fold_left]. rewrite value_lt by assumption. ring. Qed.
Lemma value_bound ds : Forall (fun c => 48 <= c <= 57) ds -> (0 <= value ds < 10 ^ Z.of_nat (length ds))%Z.
Proof.
  induction 1 as [|c ds Hc H IH]; [cbn; lia|]. rewrite value_cons by assumption. cbn [length]. rewrite Nat2Z.inj_succ, Z.pow_succ_r by lia. cbv beta in Hc. nia.
Qed.
Lemma value_same_len a : forall b, length a = length b -> Forall (fun c => 48 <= c <= 57) a -> Forall (fun c => 48 <= c <= 57) b -> value a = value b -> a = b.
Proof.
  induction a as [|c a IH]; intros [|d b] Hl Ha Hb E; try discriminate; [reflexivity|].
  inversion Ha; subst. inversion Hb; subst. rewrite !value_cons in E by assumption. injection Hl as Hl.
  pose proof (value_bound a ltac:(assumption)). pose proof (value_bound b ltac:(assumption)). rewrite <- Hl in *.
  assert (c = d) by nia. subst d. f_equal. apply IH; auto. nia.
Qed.
Lemma leading_low ds : numeric ds -> leading ds -> ds = [48] \/ (10 ^ (Z.of_nat (length ds) - 1) <= value ds)%Z.
Proof.
  intros [H1 H2] [H|H]; [now left|right]. destruct ds as [|c ds]; [congruence|]. inversion H2; subst. cbn in H. rewrite value_cons by assumption.
  cbn [length]. replace (Z.of_nat (S (length ds)) - 1)%Z with (Z.of_nat (length ds)) by lia. pose proof (value_bound ds ltac:(assumption)).
  assert (0 < 10 ^ Z.of_nat (length ds))%Z by (apply Z.pow_pos_nonneg; lia). nia.
Qed.
Lemma usual_digits a b : numeric a -> numeric b -> leading a -> leading b -> value a = value b -> a = b.
Proof.
  intros Ha Hb La Lb E.
  assert (G : forall x y, numeric x -> numeric y -> leading x -> leading y -> value x = value y -> (length x <= length y)%nat -> x = y).
  { clear. intros x y Hx Hy Lx Ly E Hl.
    destruct (Nat.eq_dec (length x) (length y)) as [El|El]; [apply value_same_len; auto; [apply Hx|apply Hy]|].
    exfalso. pose proof (value_bound x (proj2 Hx)). destruct (leading_low y Hy Ly) as [->|Hlow].
    - destruct Hx as [Hx _]. destruct x; cbn in *; [congruence|lia].
    - assert (10 ^ Z.of_nat (length x) <= 10 ^ (Z.of_nat (length y) - 1))%Z by (apply Z.pow_le_mono_r; lia). lia. }
  destruct (Nat.le_ge_cases (length a) (length b)); [auto|symmetry; auto].
Qed.
Lemma usual_unique a b z : usual a z -> usual b z -> a = b.
Proof.
  intros [(A1 & A2 & A3)|(ds & -> & A1 & A2 & A3 & A4)] [(B1 & B2 & B3)|(es & -> & B1 & B2 & B3 & B4)].
  - apply usual_digits; auto. congruence.
  - pose proof (value_nonneg a A1). lia.
  - pose proof (value_nonneg b B1). lia.
  - f_equal. apply usual_digits; auto. lia.
Qed.
Lemma usual_inj a z z' : usual a z -> usual a z' -> z = z'.
Proof.
  assert (G : forall ds, ~ numeric (45 :: ds)) by (intros ds [_ H]; inversion H; lia).
  intros [(A1 & A2 & A3)|(ds & -> & A1 & A2 & A3 & A4)] [(B1 & B2 & B3)|(es & E & B1 & B2 & B3 & B4)]; subst; try congruence.
  - now apply G in A1.
  - now apply G in B1.
Qed.

(* --- hexadecimal ------------------------------------------------------------------- *)
Lemma hex_digit_spec c v : hex_digit c = Some v <-> hexval c v.
Proof.
  unfold hex_digit, hexval. destruct ((48 <=? c) && (c <=? 57))%bool eqn:E1; [split; [intros X; injection X as <-; left; lia|intros [?|[?|?]]; f_equal; lia]|].
  destruct ((97 <=? c) && (c <=? 102))%bool eqn:E2; [split; [intros X; injection X as <-; right; left; lia|intros [?|[?|?]]; f_equal; lia]|].
  destruct ((65 <=? c) && (c <=? 70))%bool eqn:E3; [split; [intros X; injection X as <-; right; right; lia|intros [?|[?|?]]; f_equal; lia]|].
  split; [discriminate|lia].
Qed.
Lemma hex_decode_spec s t : hex_decode s = Some t <-> hex s t.
Proof.
  split.
  - assert (G : forall n s t, (length s <= n)%nat -> hex_decode s = Some t -> hex s t); [|now apply (G (length s))].
    clear. induction n as [|n IH]; intros s t Hl E; (destruct s as [|a [|b s]]; [cbn in E; injection E as <-; constructor|discriminate|]); cbn in Hl; [lia|].
    cbn in E. destruct (hex_digit a) as [x|] eqn:Ea; [|discriminate]. destruct (hex_digit b) as [y|] eqn:Eb; [|discriminate].
    destruct (hex_decode s) as [u|] eqn:Es; [|discriminate]. injection E as <-. constructor; [now apply hex_digit_spec|now apply hex_digit_spec|]. apply IH; [lia|assumption].
  - induction 1 as [|a b x y s t Ha Hb H IH]; [reflexivity|]. apply hex_digit_spec in Ha, Hb. cbn. now rewrite Ha, Hb, IH.
Qed.
Lemma hex_char_val v : v < 16 -> hexval (hex_char v) v.
Proof. unfold hex_char, hexval. intros H. destruct (N.ltb_spec v 10); lia. Qed.
Lemma hex_encode_hex s : bytes_ok s = true -> hex (hex_encode s) s.
Proof.
  induction s as [|b s IH]; intros H; [constructor|]. cbn in H. apply Bool.andb_true_iff in H as [Hb H]. apply N.ltb_lt in Hb. cbn [hex_encode].
  assert (E : b = 16 * (b / 16) + b mod 16) by (apply N.div_mod; lia). rewrite E at 3.
  constructor; [apply hex_char_val, N.div_lt_upper_bound; lia|apply hex_char_val, N.mod_lt; lia|auto].
Qed.

(* --- time ---------------------------------------------------------------------------- *)
Lemma window now ts e : era now -> int64 ts -> (0 <= e < 2 ^ 63 - 1)%Z ->
  ((e <? time_sub now (Time ts 0)) || (time_sub now (Time ts 0) <? - e))%Z%bool = false <-> within now ts e.
Proof.
  intros [Hs Hn] Ht He.
  assert (Sat : forall D, (let d := if (D <? - 2 ^ 63)%Z then (- 2 ^ 63)%Z else if (2 ^ 63 - 1 <? D)%Z then (2 ^ 63 - 1)%Z else D in
    ((e <? d) || (d <? - e))%Z%bool = false) <-> (- e <= D <= e)%Z).
  { intros D. cbn zeta. change (2 ^ 63)%Z with 9223372036854775808%Z in *.
    destruct (Z.ltb_spec D (- (9223372036854775808))); [|destruct (Z.ltb_spec (9223372036854775808 - 1) D)]; rewrite Bool.orb_false_iff, !Z.ltb_ge; lia. }
  unfold time_sub. cbn zeta. cbn zeta in Sat. rewrite Sat. clear Sat.
  unfold int64, within, nanos, internal, wrap64, second, year1 in *. destruct now as [s ns]. cbn [t_sec t_nsec] in *.
  change (2 ^ 63)%Z with 9223372036854775808%Z in *. change (2 ^ 64)%Z with 18446744073709551616%Z. change (2 ^ 40)%Z with 1099511627776%Z in *.
  rewrite (Z.mod_small (s + _ + _)) by lia.
  destruct (Z_lt_ge_dec (ts + 62135596800) 9223372036854775808) as [H|H].
  - rewrite Z.mod_small by lia. lia.
  - replace ((ts + 62135596800 + 9223372036854775808) mod 18446744073709551616)%Z with (ts + 62135596800 - 9223372036854775808)%Z; [lia|].
    apply (Z.mod_unique_pos _ _ 1); lia.
Qed.

(* --- checking -------------------------------------------------------------------------- *)
Lemma check_spec hmac e now user pass : era now -> (0 <= e < 2 ^ 63 - 1)%Z ->
  check hmac e now user pass = true <->
  exists t z x sig n, pass = t ++ colon :: x /\ ~ In colon t /\ numeral t z /\ int64 z /\ hex x sig /\ within now z e /\
    usual n z /\ sig = firstn 10 (hmac (user ++ colon :: n)).
Proof.
  intros Hnow He. unfold check, parse_pass, valid. split.
  - destruct (split_colon pass) as [[t x]|] eqn:E1; [|discriminate]. destruct (parse_int t) as [z|] eqn:E2; [|discriminate].
    destruct (hex_decode x) as [sig|] eqn:E3; [|discriminate]. apply split_spec in E1 as [-> Hn]. apply parse_int_spec in E2 as [H1 H2].
    apply hex_decode_spec in E3. destruct (_ || _)%bool eqn:Ew; [discriminate|]. apply window in Ew; auto. intros Hm. apply beq_eq in Hm.
    exists t, z, x, sig, (dec z). do 6 (split; auto). split; [apply dec_usual|]. symmetry. exact Hm.
  - intros (t & z & x & sig & n & -> & Hn & H1 & H2 & H3 & Hw & Hu & ->).
    rewrite (proj2 (split_spec _ t x)) by auto. rewrite (proj2 (parse_int_spec t z)) by auto. rewrite (proj2 (hex_decode_spec x _) H3).
    apply window in Hw; auto. rewrite Hw. unfold mac_input. rewrite (usual_unique (dec z) n z (dec_usual z) Hu). apply beq_refl.
Qed.
Lemma mac_inj u v z z' n n' : usual n z -> usual n' z' -> u ++ colon :: n = v ++ colon :: n' -> u = v /\ z = z'.
Proof.
  intros H1 H2 E. destruct (last_colon u v n n' (no_colon _ _ H1) (no_colon _ _ H2) E) as [-> ->]. split; [reflexivity|]. eapply usual_inj; eauto.
Qed.
Lemma bytes_ok_firstn k s : bytes_ok s = true -> bytes_ok (firstn k s) = true.
Proof. revert s. induction k as [|k IH]; intros [|c s] H; cbn in *; auto. apply Bool.andb_true_iff in H as [-> H]. cbn. auto. Qed.
Lemma numeral_inj t z z' : numeral t z -> numeral t z' -> z = z'.
Proof.
  assert (G : forall c ds, numeric (c :: ds) -> 48 <= c <= 57) by (intros c ds [_ H]; now inversion H).
  intros [(A1 & A2)|[(ds & -> & A1 & A2)|(ds & -> & A1 & A2)]] [(B1 & B2)|[(es & E & B1 & B2)|(es & E & B1 & B2)]]; subst; try congruence;
    try (apply G in A1; lia); try (apply G in B1; lia); try (injection E as ->; reflexivity); discriminate.
Qed.
Lemma hex_inj x s t : hex x s -> hex x t -> s = t.
Proof. intros H1 H2. apply hex_decode_spec in H1, H2. congruence. Qed.
Lemma issued hmac e now now2 user : mac32 hmac -> era now -> era now2 -> (0 <= e < 2 ^ 63 - 1)%Z ->
  check hmac e now2 user (pass_for hmac now user) = true <-> within now2 (t_sec now) e.
Proof.
  intros Hm Hn Hn2 He. rewrite check_spec by assumption.
  set (k := firstn 10 (hmac (mac_input user (t_sec now)))).
  assert (Hk : bytes_ok k = true) by (apply bytes_ok_firstn, Hm).
  assert (Hi : int64 (t_sec now)) by (destruct Hn; unfold int64; change (2 ^ 63)%Z with 9223372036854775808%Z; change (2 ^ 40)%Z with 1099511627776%Z in *; lia).
  pose proof (dec_usual (t_sec now)) as Hu.
  split.
  - intros (t & z & x & sig & n & E & Hnc & H1 & _ & _ & Hw & _). unfold pass_for in E.
    assert (E1 : split_colon (dec (t_sec now) ++ colon :: hex_encode k) = Some (dec (t_sec now), hex_encode k)) by (apply split_spec; split; [reflexivity|eapply no_colon; eauto]).
    assert (E2 : split_colon (t ++ colon :: x) = Some (t, x)) by (apply split_spec; auto).
    fold k in E. rewrite E, E2 in E1. injection E1 as -> _. assert (z = t_sec now) by (eapply numeral_inj; eauto using usual_numeral). now subst z.
  - intros Hw. exists (dec (t_sec now)), (t_sec now), (hex_encode k), k, (dec (t_sec now)).
    split; [reflexivity|]. split; [eapply no_colon; eauto|]. split; [now apply usual_numeral|]. split; [assumption|]. split; [now apply hex_encode_hex|]. auto.
Qed.
