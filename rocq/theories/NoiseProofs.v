From Verif Require Import Noise NoiseSpec Hist.

Lemma skipn_plus {A} (a b : nat) (l : list A) : skipn a (skipn b l) = skipn (b + a) l.
Proof. revert l; induction b as [|b IH]; intros l; [reflexivity|]. destruct l; [now rewrite !skipn_nil|apply IH]. Qed.
Lemma cut_stable k : (0 < k)%nat -> forall f1 f2 m, (length m <= f1)%nat -> (length m <= f2)%nat -> cut f1 k m = cut f2 k m.
Proof.
  intros Hk. induction f1 as [|f1 IH]; intros f2 m H1 H2.
  - destruct m; [|cbn in H1; lia]. destruct f2; reflexivity.
  - destruct f2 as [|f2].
    + destruct m; [|cbn in H2; lia]. reflexivity.
    + cbn [cut]. destruct (Nat.leb (length m) k) eqn:E; [reflexivity|]. apply Nat.leb_gt in E. f_equal. apply IH; rewrite skipn_length; lia.
Qed.
Lemma pieces_step k m : (0 < k)%nat -> pieces k m = if Nat.leb (length m) k then [m] else firstn k m :: pieces k (skipn k m).
Proof.
  intros Hk. unfold pieces. destruct (length m) as [|n] eqn:E; [reflexivity|]. cbn [cut]. rewrite E.
  destruct (Nat.leb (S n) k) eqn:El; [reflexivity|]. apply Nat.leb_gt in El. f_equal. apply cut_stable; auto; rewrite skipn_length; lia.
Qed.
Lemma pieces_nonempty k m : (0 < k)%nat -> pieces k m <> [].
Proof. intros Hk. rewrite pieces_step by assumption. destruct (Nat.leb _ _); discriminate. Qed.
Lemma pieces_ind k (Hk : (0 < k)%nat) (P : bytes -> Prop) :
  (forall m, (length m <= k)%nat -> P m) -> (forall m, (k < length m)%nat -> P (skipn k m) -> P m) -> forall m, P m.
Proof.
  intros H1 H2 m. remember (length m) as n eqn:E. revert m E. induction n as [n IH] using lt_wf_ind. intros m E.
  destruct (Nat.le_gt_cases (length m) k) as [Hl|Hl]; [auto|]. apply H2; [assumption|]. eapply IH; [|reflexivity]. rewrite skipn_length. lia.
Qed.
Lemma pieces_short k m : (0 < k)%nat -> (length m <= k)%nat -> pieces k m = [m].
Proof. intros Hk Hl. rewrite pieces_step by assumption. now rewrite (proj2 (Nat.leb_le _ _)). Qed.
Lemma pieces_long k m : (0 < k)%nat -> (k < length m)%nat -> pieces k m = firstn k m :: pieces k (skipn k m).
Proof. intros Hk Hl. rewrite pieces_step by assumption. now rewrite (proj2 (Nat.leb_gt _ _)). Qed.
Lemma pieces_concat k m : (0 < k)%nat -> concat (pieces k m) = m.
Proof.
  intros Hk. induction m as [m Hl|m Hl IH] using (pieces_ind k Hk).
  - rewrite pieces_short by assumption. cbn. apply app_nil_r.
  - rewrite pieces_long by assumption. cbn [concat]. rewrite IH. apply firstn_skipn.
Qed.
Lemma pieces_count k m : (0 < k)%nat -> length (pieces k m) =
  let n1 := (length m / k + 1)%nat in if (Nat.eqb (length m mod k) 0 && Nat.ltb 1 n1)%bool then (n1 - 1)%nat else n1.
Proof.
  intros Hk. induction m as [m Hl|m Hl IH] using (pieces_ind k Hk); cbv zeta in *.
  - rewrite pieces_short by assumption. cbn [length]. destruct (Nat.eq_dec (length m) k) as [->|Hn].
    + rewrite Nat.div_same, Nat.mod_same by lia. reflexivity.
    + rewrite Nat.div_small, Nat.mod_small by lia. destruct (Nat.eqb (length m) 0); reflexivity.
  - rewrite pieces_long by assumption. cbn [length]. rewrite IH, skipn_length. clear IH.
    assert (E : length m = (length m - k + 1 * k)%nat) by lia. remember (length m - k)%nat as x eqn:Ex.
    rewrite E, Nat.div_add, Nat.mod_add by lia. assert (Hx : (0 < x)%nat) by lia.
    pose proof (Nat.div_mod x k ltac:(lia)) as Hd. destruct (Nat.eqb (x mod k) 0) eqn:Em; cbn [andb].
    + apply Nat.eqb_eq in Em. assert (1 <= x / k)%nat by nia.
      rewrite (proj2 (Nat.ltb_lt _ _)) by lia. rewrite (proj2 (Nat.ltb_lt _ _)) by lia. lia.
    + lia.
Qed.

Definition base (k : nat) (ms : list bytes) : N := N.of_nat (length (flat_map (pieces k) ms)).
Lemma base_cons k m ms : base k (m :: ms) = N.of_nat (length (pieces k m)) + base k ms.
Proof. unfold base. cbn [flat_map]. rewrite app_length. lia. Qed.
Lemma piece_calls_bounds e n0 ps : forall e' n ad p, In (e', n, ad, p) (piece_calls e n0 ps) -> e' = e /\ n0 <= n < n0 + N.of_nat (length ps).
Proof.
  revert n0. induction ps as [|q ps IH]; intros n0 e' n ad p Hi; [contradiction|]. cbn [piece_calls] in Hi.
  destruct Hi as [E|Hi]; [injection E as <- <- _ _; cbn [length]; lia|]. apply IH in Hi. cbn [length]. lia.
Qed.
Lemma calls_bounds k : forall ms i n0 e n ad p, In (e, n, ad, p) (calls_from k i n0 ms) -> n0 <= n < n0 + base k ms.
Proof.
  induction ms as [|m ms IH]; intros i n0 e n ad p Hi; [contradiction|]. cbn [calls_from] in Hi. rewrite base_cons. apply in_app_iff in Hi as [Hi|Hi].
  - apply piece_calls_bounds in Hi. lia.
  - apply IH in Hi. lia.
Qed.
(* the calls with nonces from [n0 + base of the first j] on *)
Lemma calls_at k : forall ms1 m ms2 i n0 e n ad p,
  In (e, n, ad, p) (calls_from k i n0 (ms1 ++ m :: ms2)) -> n0 + base k ms1 <= n < n0 + base k ms1 + N.of_nat (length (pieces k m)) ->
  In (e, n, ad, p) (piece_calls ((i + N.of_nat (length ms1)) / 256) (n0 + base k ms1) (pieces k m)).
Proof.
  induction ms1 as [|m1 ms1 IH]; intros m ms2 i n0 e n ad p Hi Hn.
  - cbn [app calls_from length] in *. change (base k []) with 0 in *. rewrite !N.add_0_r in *. apply in_app_iff in Hi as [Hi|Hi]; [assumption|].
    apply calls_bounds in Hi. lia.
  - cbn [app calls_from length] in *. rewrite base_cons in *. apply in_app_iff in Hi as [Hi|Hi]; [apply piece_calls_bounds in Hi; lia|].
    apply IH in Hi; [|lia]. replace (i + N.of_nat (S (length ms1))) with (i + 1 + N.of_nat (length ms1)) by lia.
    replace (n0 + (N.of_nat (length (pieces k m1)) + base k ms1)) with (n0 + N.of_nat (length (pieces k m1)) + base k ms1) by lia. assumption.
Qed.

Section P.
Context (enc : N -> N -> bytes -> bytes -> bytes) (dec : N -> N -> bytes -> bytes -> option bytes) (M : nat).
Hypothesis Hlen : forall e n ad p, length (enc e n ad p) = (length p + MAC)%nat.
Hypothesis HM : (MAC < M)%nat.
Notation K := (M - MAC)%nat.

Definition adv (cs : cipher) (k : nat) : cipher := Cipher (k_epoch cs) (k_nonce cs + N.of_nat k).
Lemma adv_next cs k : adv (next cs) k = adv cs (S k).
Proof. unfold adv, next. cbn. f_equal. lia. Qed.
Fixpoint seal (with_ad : bool) (cs : cipher) (ps : list bytes) : list bytes :=
  match ps with
  | [] => []
  | p :: ps' => enc (k_epoch cs) (k_nonce cs) (if with_ad then [match ps' with [] => 1 | _ => 0 end] else []) p :: seal with_ad (next cs) ps'
  end.
Fixpoint open (with_ad : bool) (cs : cipher) (l : list bytes) : option (bytes * cipher) :=
  match l with
  | [] => Some ([], cs)
  | c :: l' =>
      match aead_decrypt dec cs (if with_ad then [match l' with [] => 1 | _ => 0 end] else []) c with
      | None => None
      | Some (p, cs') => match open with_ad cs' l' with None => None | Some (q, cs'') => Some (p ++ q, cs'') end
      end
  end.

Lemma encrypt_loop_ok with_ad plain : forall fuel pstart start final buf cs,
  (pstart <= length plain)%nat ->
  final = (start + (length plain - pstart) + MAC * length (pieces K (skipn pstart plain)))%nat -> length buf = final ->
  k_nonce cs + N.of_nat (length (pieces K (skipn pstart plain))) < 2 ^ 64 -> (length (pieces K (skipn pstart plain)) <= fuel)%nat ->
  encrypt_loop enc M fuel with_ad plain final start pstart buf cs =
  Ret (Some (firstn start buf ++ concat (seal with_ad cs (pieces K (skipn pstart plain))), adv cs (length (pieces K (skipn pstart plain))))).
Proof.
  assert (HK : (0 < K)%nat) by lia. unfold MAC in *.
  induction fuel as [|fuel IH]; intros pstart start final buf cs Hp Hf Hb Hn Hfuel.
  { pose proof (pieces_nonempty (M - 16) (skipn pstart plain) HK) as Hne. destruct (pieces _ _); [contradiction|cbn in Hfuel; lia]. }
  set (r := skipn pstart plain) in *. assert (Hr : length r = (length plain - pstart)%nat) by apply skipn_length.
  pose proof (pieces_nonempty (M - 16) r HK) as Hne.
  assert (Hne1 : (1 <= length (pieces (M - 16) r))%nat) by (destruct (pieces (M - 16) r); [contradiction|cbn; lia]).
  cbn [encrypt_loop]. rewrite (proj2 (Nat.ltb_lt start final)) by lia. rewrite <- Hr.
  assert (Hnn : (k_nonce cs =? 2 ^ 64 - 1) = false).
  { apply N.eqb_neq. intros E. rewrite E in Hn. change (2 ^ 64) with 18446744073709551616 in Hn. lia. }
  unfold aead_encrypt. rewrite Hnn. cbv zeta. unfold MAC in *. destruct (Nat.le_gt_cases (length r) (M - 16)) as [Hl|Hl].
  - rewrite pieces_short in * by assumption. cbn [length] in *. rewrite Nat.min_r by assumption.
    rewrite (proj2 (Nat.ltb_ge final _)) by lia. rewrite (proj2 (Nat.leb_le final (start + M))) by lia.
    replace (sub plain pstart (length r)) with r by (unfold sub; fold r; now rewrite firstn_all).
    cbn [seal concat]. rewrite app_nil_r. set (c := enc _ _ _ r). assert (Hc : length c = (length r + 16)%nat) by apply Hlen.
    destruct fuel as [|fuel]; cbn [encrypt_loop]; rewrite (proj2 (Nat.ltb_ge (start + M) final)) by lia.
    all: unfold overwrite; rewrite (skipn_all2 buf) by lia; rewrite app_nil_r; reflexivity.
  - rewrite (pieces_long (M - 16) r) in * by assumption. cbn [length] in *. rewrite Nat.min_l by lia.
    pose proof (pieces_nonempty (M - 16) (skipn (M - 16) r) HK) as Hne2.
    assert (Hne3 : (1 <= length (pieces (M - 16) (skipn (M - 16) r)))%nat) by (destruct (pieces (M - 16) (skipn (M - 16) r)); [contradiction|cbn; lia]).
    rewrite (proj2 (Nat.ltb_ge final _)) by lia. rewrite (proj2 (Nat.leb_gt final (start + M))) by lia.
    replace (sub plain pstart (M - 16)) with (firstn (M - 16) r) by reflexivity.
    cbn [seal concat]. rewrite (fun a b => match pieces (M - 16) (skipn (M - 16) r) as l return l <> [] -> (match l with [] => a | _ => b end) = b with [] => fun H => False_ind _ (H eq_refl) | _ => fun _ => eq_refl end) by assumption.
    set (c := enc _ _ _ (firstn (M - 16) r)). assert (Hc : length c = M) by (unfold c; rewrite Hlen, firstn_length; lia).
    assert (Hsk : skipn (M - 16) r = skipn (pstart + (M - 16)) plain) by (unfold r; rewrite skipn_plus; f_equal; lia).
    assert (Hbs : (start + M <= length buf)%nat) by lia.
    assert (Hov : overwrite buf start c = (firstn start buf ++ c) ++ skipn (start + M) buf) by (unfold overwrite; rewrite Hc, app_assoc; reflexivity).
    assert (Hl2 : length (firstn start buf ++ c) = (start + M)%nat) by (rewrite app_length, firstn_length; lia).
    rewrite (IH (pstart + (M - 16))%nat (start + M)%nat final (overwrite buf start c) (next cs)); rewrite <- ?Hsk.
    + rewrite adv_next. do 3 f_equal. rewrite Hov, firstn_app, Hl2, Nat.sub_diag, firstn_O, app_nil_r.
      rewrite <- Hl2 at 1. rewrite firstn_all. now rewrite <- app_assoc.
    + lia.
    + lia.
    + rewrite Hov, app_length, Hl2, skipn_length. lia.
    + unfold next. cbn [k_nonce]. lia.
    + lia.
Qed.
Lemma encrypt_ok with_ad cs m : k_nonce cs + N.of_nat (length (pieces K m)) < 2 ^ 64 ->
  encrypt enc M with_ad cs m = Ret (Some (concat (seal with_ad cs (pieces K m)), adv cs (length (pieces K m)))).
Proof.
  intros Hn. unfold encrypt. assert (HK : (0 < K)%nat) by lia. pose proof (pieces_count K m HK) as Hc. cbv zeta in *. rewrite <- Hc.
  set (final := (length m + MAC * length (pieces K m))%nat).
  pose proof (encrypt_loop_ok with_ad m (S final) 0 0 final (repeat 0 final) cs) as H. change (skipn 0 m) with m in H.
  change (firstn 0 (repeat 0 final)) with (@nil N) in H. cbn [app] in H. apply H; auto.
  - lia.
  - subst final. lia.
  - apply repeat_length.
  - subst final. unfold MAC. lia.
Qed.

Lemma decrypt_loop_ok with_ad ct : forall fuel start acc cs, (start < length ct)%nat -> (length ct - start < fuel)%nat ->
  decrypt_loop dec M fuel with_ad ct start acc cs =
  Ret (match open with_ad cs (pieces M (skipn start ct)) with None => None | Some (q, cs') => Some (acc ++ q, cs') end).
Proof.
  assert (HM0 : (0 < M)%nat) by lia.
  induction fuel as [|fuel IH]; intros start acc cs Hs Hf; [lia|]. cbn [decrypt_loop]. rewrite (proj2 (Nat.ltb_lt _ _)) by assumption. cbv zeta.
  set (r := skipn start ct). assert (Hr : length r = (length ct - start)%nat) by apply skipn_length. rewrite <- Hr.
  destruct (Nat.le_gt_cases (length r) M) as [Hl|Hl].
  - rewrite pieces_short by assumption. rewrite Nat.min_r by assumption. rewrite (proj2 (Nat.leb_le (length ct) _)) by lia.
    replace (sub ct start (length r)) with r by (unfold sub; fold r; now rewrite firstn_all). cbn [open].
    destruct (aead_decrypt dec cs _ r) as [[p cs']|]; [|reflexivity].
    destruct fuel as [|fuel]; cbn [decrypt_loop]; rewrite (proj2 (Nat.ltb_ge (start + M) _)) by lia; now rewrite app_nil_r.
  - rewrite (pieces_long M r) by assumption. rewrite Nat.min_l by lia. rewrite (proj2 (Nat.leb_gt (length ct) _)) by lia.
    replace (sub ct start M) with (firstn M r) by reflexivity. cbn [open].
    rewrite (fun a b => match pieces M (skipn M r) as l return l <> [] -> (match l with [] => a | _ => b end) = b with [] => fun H => False_ind _ (H eq_refl) | _ => fun _ => eq_refl end) by (apply pieces_nonempty; assumption).
    destruct (aead_decrypt dec cs _ (firstn M r)) as [[p cs']|]; [|reflexivity].
    rewrite IH by lia. replace (skipn M r) with (skipn (start + M) ct) by (unfold r; rewrite skipn_plus; f_equal; lia).
    destruct (open with_ad cs' _) as [[q cs'']|]; [|reflexivity]. now rewrite app_assoc.
Qed.
Lemma decrypt_ok with_ad cs d : d <> [] -> decrypt dec M with_ad cs d = Ret (open with_ad cs (pieces M d)).
Proof.
  intros Hd. unfold decrypt. rewrite decrypt_loop_ok; [|destruct d; [contradiction|cbn; lia]|lia].
  change (skipn 0 d) with d. destruct (open with_ad cs (pieces M d)) as [[q cs']|]; reflexivity.
Qed.
Lemma decrypt_nil with_ad cs : decrypt dec M with_ad cs [] = Ret (Some ([], cs)).
Proof. reflexivity. Qed.
Lemma decrypt_total with_ad cs d : exists r, decrypt dec M with_ad cs d = Ret r.
Proof. destruct d; [eexists; reflexivity|]. rewrite decrypt_ok by discriminate. eauto. Qed.

(* what is sealed is cut again at the same places *)
Inductive shaped (k : nat) : list bytes -> Prop :=
| shaped_last : forall p, (length p <= k)%nat -> shaped k [p]
| shaped_more : forall p ps, length p = k -> concat ps <> [] -> shaped k ps -> shaped k (p :: ps).
Lemma pieces_of_shaped k ps : (0 < k)%nat -> shaped k ps -> pieces k (concat ps) = ps.
Proof.
  intros Hk. induction 1 as [p Hp|p ps Hp Hne Hs IH]; cbn [concat].
  - rewrite app_nil_r. now apply pieces_short.
  - rewrite pieces_long; [|assumption|rewrite app_length; destruct (concat ps); [contradiction|cbn; lia]].
    rewrite firstn_app, Hp, Nat.sub_diag, firstn_O, app_nil_r, <- Hp, firstn_all. f_equal.
    rewrite skipn_app, Nat.sub_diag, skipn_all. cbn [app skipn]. now rewrite Hp.
Qed.
Lemma seal_nonempty with_ad cs ps : ps <> [] -> concat (seal with_ad cs ps) <> [].
Proof.
  destruct ps as [|p ps]; [congruence|]. intros _ E. cbn [seal concat] in E. apply (f_equal (@length N)) in E. rewrite app_length, Hlen in E. unfold MAC in E. cbn in E. lia.
Qed.
Lemma seal_shaped with_ad m : forall cs, shaped M (seal with_ad cs (pieces K m)).
Proof.
  assert (HK : (0 < K)%nat) by lia. induction m as [m Hl|m Hl IH] using (pieces_ind K HK); intros cs.
  - rewrite pieces_short by assumption. cbn [seal]. constructor. rewrite Hlen. lia.
  - rewrite pieces_long by assumption. cbn [seal]. constructor; [rewrite Hlen, firstn_length; lia| |apply IH].
    apply seal_nonempty, pieces_nonempty. assumption.
Qed.
Lemma seal_length with_ad ps : forall cs, length (seal with_ad cs ps) = length ps.
Proof. induction ps as [|p ps IH]; intros cs; [reflexivity|]. cbn. now rewrite IH. Qed.
Lemma open_seal (Hdec : forall e n ad p, dec e n ad (enc e n ad p) = Some p) with_ad ps : forall cs,
  k_nonce cs + N.of_nat (length ps) < 2 ^ 64 -> open with_ad cs (seal with_ad cs ps) = Some (concat ps, adv cs (length ps)).
Proof.
  induction ps as [|p ps IH]; intros cs Hn; [cbn; unfold adv; destruct cs; cbn; f_equal; f_equal; f_equal; lia|].
  cbn [seal open length] in *. unfold aead_decrypt.
  replace (match seal with_ad (next cs) ps with [] => 1 | _ => 0 end) with (match ps with [] => 1 | _ => 0 end) by (destruct ps; reflexivity).
  rewrite Hlen. rewrite (proj2 (Nat.ltb_ge _ _)) by lia. rewrite Hdec.
  assert (Hnn : (k_nonce cs =? 2 ^ 64 - 1) = false) by (apply N.eqb_neq; intros E; rewrite E in Hn; change (2 ^ 64) with 18446744073709551616 in Hn; lia).
  rewrite Hnn, IH by (cbn [next k_nonce]; lia). rewrite adv_next. reflexivity.
Qed.

(* --- the sender's encryptions ----------------------------------------------- *)
Lemma seal_calls e n ps : seal true (Cipher e n) ps = map (fun '(e, n, ad, p) => enc e n ad p) (piece_calls e n ps).
Proof. revert n; induction ps as [|p ps IH]; intros n; [reflexivity|]. cbn. f_equal. apply IH. Qed.

(* --- no forgery ------------------------------------------------------------- *)
Lemma open_forced e l : forall ps n q cs',
  ps <> [] -> l <> [] ->
  (forall c, In c l -> forall n' ad p, dec e n' ad c = Some p -> n <= n' < n + N.of_nat (length ps) -> In (e, n', ad, p) (piece_calls e n ps)) ->
  open true (Cipher e n) l = Some (q, cs') -> q = concat ps /\ cs' = adv (Cipher e n) (length ps).
Proof.
  induction l as [|c l IH]; intros ps n q cs' Hps Hl Hf Ho; [congruence|]. destruct ps as [|p ps]; [congruence|].
  cbn [open] in Ho. unfold aead_decrypt in Ho. cbn [k_epoch k_nonce] in Ho. destruct (Nat.ltb (length c) MAC); [discriminate|].
  destruct (n =? 2 ^ 64 - 1); [discriminate|]. set (ad := [match l with [] => 1 | _ => 0 end]) in *.
  destruct (dec e n ad c) as [p'|] eqn:Ed; [|discriminate].
  pose proof (Hf c (or_introl eq_refl) n ad p' Ed ltac:(cbn [length]; lia)) as Hin. cbn [piece_calls] in Hin.
  destruct Hin as [Hin|Hin]; [|apply piece_calls_bounds in Hin; lia]. unfold ad in Hin. injection Hin as Ead <-.
  destruct l as [|c2 l], ps as [|p2 ps]; try discriminate.
  - cbn in Ho. injection Ho as <- <-. cbn. split; [reflexivity|]. unfold next, adv. cbn. reflexivity.
  - change (next (Cipher e n)) with (Cipher e (n + 1)) in Ho. destruct (open true (Cipher e (n + 1)) (c2 :: l)) as [[q' cs'']|] eqn:Eo; [|discriminate].
    injection Ho as <- <-. apply (IH (p2 :: ps)) in Eo; [|discriminate|discriminate|].
    + destruct Eo as [-> ->]. split; [reflexivity|]. unfold adv. cbn [length k_epoch k_nonce]. f_equal. lia.
    + intros c' Hc' n' ad' p'' Hd Hr. pose proof (Hf c' (or_intror Hc') n' ad' p'' Hd ltac:(cbn [length] in *; lia)) as Hi.
      cbn [piece_calls] in Hi. destruct Hi as [Hi|Hi]; [|exact Hi]. injection Hi as <- _ _. lia.
Qed.

(* the state of either end after k messages *)
Definition chan_at (ms : list bytes) : chan :=
  Chan (Cipher (N.of_nat (length ms) / 256) (base K ms)) (N.of_nat (length ms) mod 256).
Lemma counted_at ms m : counted (chan_at ms) (adv (ch_cipher (chan_at ms)) (length (pieces K m))) = chan_at (ms ++ [m]).
Proof.
  unfold counted, chan_at, adv. cbn [ch_cipher ch_count k_epoch k_nonce]. rewrite app_length. cbn [length].
  assert (Hb : base K (ms ++ [m]) = base K ms + N.of_nat (length (pieces K m))).
  { unfold base. rewrite flat_map_app, app_length. cbn [flat_map]. rewrite app_nil_r. lia. }
  rewrite Hb. set (x := N.of_nat (length ms)). replace (N.of_nat (length ms + 1)) with (x + 1) by lia.
  assert (E1 : (x mod 256 + 1) mod 256 = (x + 1) mod 256) by (rewrite N.add_mod_idemp_l by discriminate; reflexivity). rewrite E1.
  unfold rekey. cbn [k_epoch k_nonce]. destruct ((x + 1) mod 256 =? 0) eqn:E; apply f_equal2; auto; f_equal; lia.
Qed.

Lemma peer_send_all : forall ms2 ms1, base K (ms1 ++ ms2) < 2 ^ 64 ->
  exists cts, exec (peer_send enc M) (Some (chan_at ms1)) ms2 = Ret (Some (chan_at (ms1 ++ ms2)), map Some cts) /\
  Forall2 (fun ct cl => ct = concat (seal true (fst cl) (pieces K (snd cl)))) cts
    (map (fun j => (ch_cipher (chan_at (ms1 ++ firstn j ms2)), nth j ms2 [])) (seq 0 (length ms2))).
Proof.
  induction ms2 as [|m ms2 IH]; intros ms1 Hb.
  - exists []. rewrite app_nil_r. split; [reflexivity|constructor].
  - assert (Hb1 : k_nonce (ch_cipher (chan_at ms1)) + N.of_nat (length (pieces K m)) < 2 ^ 64).
    { unfold chan_at. cbn [ch_cipher k_nonce]. unfold base in *. rewrite flat_map_app, app_length in Hb. cbn [flat_map] in Hb. rewrite app_length in Hb. clear -Hb.
      change (2 ^ 64) with 18446744073709551616 in *. lia. }
    replace (ms1 ++ m :: ms2) with ((ms1 ++ [m]) ++ ms2) in * by (now rewrite <- app_assoc).
    destruct (IH (ms1 ++ [m]) Hb) as [cts [E Hc]]. exists (concat (seal true (ch_cipher (chan_at ms1)) (pieces K m)) :: cts).
    cbn [exec peer_send]. rewrite encrypt_ok by assumption. rewrite counted_at, E. split; [reflexivity|].
    cbn [length seq map]. constructor.
    + cbn [fst snd firstn nth]. rewrite app_nil_r. reflexivity.
    + rewrite <- seq_shift, map_map. erewrite map_ext; [exact Hc|]. intros j. cbn [firstn nth]. now rewrite <- app_assoc.
Qed.

Lemma peer_recv_dead ds : exec (peer_recv dec M) None ds = Ret (None, repeat None (length ds)).
Proof. induction ds as [|d ds IH]; [reflexivity|]. cbn [exec peer_recv]. rewrite IH. reflexivity. Qed.

Lemma peer_recv_one ms1 ms2 d : d <> [] -> no_forgery enc dec M (peer_calls M (ms1 ++ ms2)) [d] ->
  (exists m ms2', ms2 = m :: ms2' /\ peer_recv dec M (Some (chan_at ms1)) d = Ret (Some (chan_at (ms1 ++ [m])), Some m)) \/
  peer_recv dec M (Some (chan_at ms1)) d = Ret (None, None).
Proof.
  intros Hd Hf. assert (HK : (0 < K)%nat) by lia. cbn [peer_recv]. rewrite decrypt_ok by assumption.
  destruct (open true (ch_cipher (chan_at ms1)) (pieces M d)) as [[q cs']|] eqn:E; [left|now right].
  pose proof (pieces_nonempty M d ltac:(lia)) as Hne. unfold chan_at in E. cbn [ch_cipher] in E.
  destruct ms2 as [|m ms2].
  - exfalso. rewrite app_nil_r in Hf. destruct (pieces M d) as [|c l] eqn:Ep; [congruence|]. cbn [open] in E. unfold aead_decrypt in E. cbn [k_epoch k_nonce] in E.
    destruct (Nat.ltb (length c) MAC); [discriminate|]. destruct (base K ms1 =? 2 ^ 64 - 1); [discriminate|].
    match goal with H : context [dec ?a ?b ?x c] |- _ => destruct (dec a b x c) as [p|] eqn:Ed; [|discriminate] end.
    destruct (Hf d c (or_introl eq_refl) ltac:(rewrite Ep; now left) _ _ _ _ Ed) as [Hin _]. apply calls_bounds in Hin. lia.
  - exists m, ms2. split; [reflexivity|]. pose proof (pieces_nonempty K m HK) as Hne2.
    apply (open_forced _ _ (pieces K m)) in E; [|assumption|assumption|].
    + destruct E as [-> ->]. rewrite pieces_concat by assumption.
      change (Cipher (N.of_nat (length ms1) / 256) (base K ms1)) with (ch_cipher (chan_at ms1)). now rewrite counted_at.
    + intros c Hc n' ad p Hdec Hr. destruct (Hf d c (or_introl eq_refl) Hc _ _ _ _ Hdec) as [Hin _].
      unfold peer_calls in Hin. apply (calls_at K ms1 m ms2 0 0) in Hin; [|lia]. rewrite N.add_0_l in Hin. exact Hin.
Qed.
Lemma peer_recv_all : forall ds ms1 ms2, ~ In [] ds -> no_forgery enc dec M (peer_calls M (ms1 ++ ms2)) ds ->
  exists s rs, exec (peer_recv dec M) (Some (chan_at ms1)) ds = Ret (s, rs) /\ messages_then_errors ms2 rs.
Proof.
  induction ds as [|d ds IH]; intros ms1 ms2 Hne Hf.
  - eexists _, _. split; [reflexivity|]. exists O, O. reflexivity.
  - destruct (peer_recv_one ms1 ms2 d) as [[m [ms2' [-> E]]]|E].
    + intros ->. apply Hne. now left.
    + intros d' c [<-|[]]. apply Hf. now left.
    + destruct (IH (ms1 ++ [m]) ms2') as [s [rs [E2 [k [e Hrs]]]]].
      * intros H; apply Hne; now right.
      * rewrite <- app_assoc. intros d' c Hd'. apply Hf. now right.
      * exists s, (Some m :: rs). cbn [exec]. rewrite E, E2. split; [reflexivity|]. exists (S k), e. cbn. now rewrite Hrs.
    + exists None, (None :: repeat None (length ds)). cbn [exec]. rewrite E, peer_recv_dead. split; [reflexivity|]. exists O, (S (length ds)). reflexivity.
Qed.

(* honest delivery *)
Lemma peer_honest (Hdec : forall e n ad p, dec e n ad (enc e n ad p) = Some p) : forall ms2 ms1 cts s, base K (ms1 ++ ms2) < 2 ^ 64 ->
  exec (peer_send enc M) (Some (chan_at ms1)) ms2 = Ret (s, map Some cts) ->
  exec (peer_recv dec M) (Some (chan_at ms1)) cts = Ret (Some (chan_at (ms1 ++ ms2)), map Some ms2).
Proof.
  assert (HK : (0 < K)%nat) by lia.
  induction ms2 as [|m ms2 IH]; intros ms1 cts s Hb E.
  - cbn in E. injection E as _ E. destruct cts; [|discriminate]. rewrite app_nil_r. reflexivity.
  - assert (Hb1 : k_nonce (ch_cipher (chan_at ms1)) + N.of_nat (length (pieces K m)) < 2 ^ 64).
    { unfold chan_at. cbn [ch_cipher k_nonce]. unfold base in *. rewrite flat_map_app, app_length in Hb. cbn [flat_map] in Hb. rewrite app_length in Hb. clear -Hb.
      change (2 ^ 64) with 18446744073709551616 in *. lia. }
    cbn [exec peer_send] in E. rewrite encrypt_ok in E by assumption. rewrite counted_at in E.
    destruct (exec (peer_send enc M) (Some (chan_at (ms1 ++ [m]))) ms2) as [[s2 r2]|] eqn:E2; [|discriminate]. injection E as <- E.
    destruct cts as [|ct cts]; [discriminate|]. cbn [map] in E. injection E as <- E. subst r2.
    cbn [exec peer_recv]. rewrite decrypt_ok by (apply seal_nonempty, pieces_nonempty; assumption).
    rewrite pieces_of_shaped; [|lia|apply seal_shaped]. rewrite open_seal by assumption. rewrite counted_at, pieces_concat by assumption.
    apply IH in E2; [|rewrite <- app_assoc; exact Hb]. rewrite E2, <- app_assoc. reflexivity.
Qed.

(* --- clients ---------------------------------------------------------------- *)
Lemma client_calls_bounds : forall ms n0 e n ad p, In (e, n, ad, p) (client_calls_from n0 ms) -> n0 <= n.
Proof. induction ms as [|m ms IH]; intros n0 e n ad p Hi; [contradiction|]. destruct Hi as [E|Hi]; [injection E as _ <- _ _; lia|]. apply IH in Hi. lia. Qed.
Lemma client_calls_app n0 : forall a b, client_calls_from n0 (a ++ b) = client_calls_from n0 a ++ client_calls_from (n0 + N.of_nat (length a)) b.
Proof.
  intros a. revert n0. induction a as [|m a IH]; intros n0 b; cbn; [now rewrite N.add_0_r|]. f_equal. rewrite IH. do 2 f_equal. lia.
Qed.
Lemma client_call_at : forall ms n0 e n ad p, In (e, n, ad, p) (client_calls_from n0 ms) ->
  exists ms1 ms2, ms = ms1 ++ p :: ms2 /\ n = n0 + N.of_nat (length ms1) /\ e = 0 /\ ad = [].
Proof.
  induction ms as [|m ms IH]; intros n0 e n ad p Hi; [contradiction|]. destruct Hi as [E|Hi].
  - injection E as <- <- <- <-. exists [], ms. cbn. repeat split; lia.
  - apply IH in Hi as [ms1 [ms2 [-> [-> [-> ->]]]]]. exists (m :: ms1), ms2. cbn. repeat split; lia.
Qed.
Lemma subseq_app_skip {A} (l a b : list A) : subseq a b -> subseq a (l ++ b).
Proof. intros H. induction l as [|x l IH]; [exact H|]. apply subseq_skip, IH. Qed.

Lemma client_recv_step cs d a : d <> [] -> client_recv dec M cs (d, a) = Ret (match open false cs (pieces M d) with
  None => (Cipher (k_epoch cs) (k_nonce cs + a), None) | Some (p, cs') => (cs', Some p) end).
Proof. intros Hd. unfold client_recv. cbn [fst snd]. rewrite decrypt_ok by assumption. destruct (open false cs (pieces M d)) as [[q c]|]; reflexivity. Qed.
Lemma client_recv_all : forall ds ms1 ms2 cs, ~ In [] (map fst ds) -> Forall (fun m => (length m < K)%nat) (ms1 ++ ms2) ->
  no_forgery enc dec M (client_calls_from 0 (ms1 ++ ms2)) (map fst ds) -> k_epoch cs = 0 -> N.of_nat (length ms1) <= k_nonce cs ->
  exists cs' rs, exec (client_recv dec M) cs ds = Ret (cs', rs) /\ subseq (successes rs) ms2.
Proof.
  induction ds as [|[d a] ds IH]; intros ms1 ms2 cs Hne Hsmall Hf He Hn.
  - eexists _, _. split; [reflexivity|]. constructor.
  - assert (Hd : d <> []) by (intros ->; apply Hne; now left).
    assert (Hrest : forall ms1' ms2' cs1, ms1' ++ ms2' = ms1 ++ ms2 -> k_epoch cs1 = 0 -> N.of_nat (length ms1') <= k_nonce cs1 ->
              exists cs' rs, exec (client_recv dec M) cs1 ds = Ret (cs', rs) /\ subseq (successes rs) ms2').
    { intros ms1' ms2' cs1 Em H1 H2. apply (IH ms1' ms2'); auto.
      - intros H; apply Hne; now right.
      - now rewrite Em.
      - rewrite Em. intros d' c Hd'. apply Hf. now right. }
    cbn [exec]. rewrite client_recv_step by assumption.
    destruct (open false cs (pieces M d)) as [[q cs1]|] eqn:Eo.
    2: { destruct (Hrest ms1 ms2 (Cipher (k_epoch cs) (k_nonce cs + a)) eq_refl He ltac:(cbn; lia)) as [cs2 [rs [E Hs]]].
         rewrite E. eexists _, _. split; [reflexivity|]. exact Hs. }
    destruct (pieces M d) as [|c l] eqn:Ep; [exfalso; revert Ep; apply pieces_nonempty; lia|]. cbn [open] in Eo.
    unfold aead_decrypt in Eo. destruct (Nat.ltb (length c) MAC); [discriminate|]. destruct (k_nonce cs =? 2 ^ 64 - 1); [discriminate|].
    rewrite He in Eo. destruct (dec 0 (k_nonce cs) [] c) as [p|] eqn:Ed; [|discriminate].
    destruct (Hf d c (or_introl eq_refl) ltac:(rewrite Ep; now left) _ _ _ _ Ed) as [Hin Hc].
    assert (l = []) as ->.
    { apply client_call_at in Hin as [a1 [a2 [Em _]]]. rewrite Em in Hsmall. apply Forall_app in Hsmall as [_ Hsmall]. inversion Hsmall as [|? ? Hp _]; subst.
      destruct (Nat.le_gt_cases (length d) M) as [Hl|Hl]; [rewrite pieces_short in Ep by (lia || assumption); injection Ep as _ Ep; now symmetry|].
      rewrite pieces_long in Ep by (lia || assumption). injection Ep as Ec _. apply (f_equal (@length N)) in Ec. rewrite firstn_length, Hlen in Ec. lia. }
    cbn [open] in Eo. injection Eo as <- <-. rewrite app_nil_r.
    assert (Hin2 : exists b1 b2, ms2 = b1 ++ p :: b2 /\ k_nonce cs = N.of_nat (length ms1) + N.of_nat (length b1)).
    { rewrite client_calls_app in Hin. apply in_app_iff in Hin as [Hin|Hin].
      - apply client_call_at in Hin as [a1 [a2 [-> [Hnn _]]]]. rewrite app_length in Hn. cbn [length] in Hn. unfold bytes in *. lia.
      - apply client_call_at in Hin as [b1 [b2 [-> [Hnn _]]]]. exists b1, b2. split; [reflexivity|]. unfold bytes in *. lia. }
    destruct Hin2 as [b1 [b2 [-> Hnn]]].
    destruct (Hrest (ms1 ++ b1 ++ [p]) b2 (next cs)) as [cs2 [rs [E Hs]]].
    + now rewrite <- !app_assoc.
    + assumption.
    + unfold next. cbn [k_nonce]. rewrite !app_length. cbn [length]. unfold bytes in *. lia.
    + rewrite E. eexists _, _. split; [reflexivity|]. cbn [successes flat_map app]. apply subseq_app_skip. now constructor.
Qed.
Lemma client_recv_single (Hdec : forall e n ad p, dec e n ad (enc e n ad p) = Some p) p a : length p = K ->
  exec (client_recv dec M) (Cipher 0 0) [(enc 0 0 [] p, a)] = Ret (Cipher 0 1, [Some p]).
Proof.
  intros Hp. assert (Hne : enc 0 0 [] p <> []) by (intros E; apply (f_equal (@length N)) in E; rewrite Hlen in E; cbn [length] in E; lia).
  cbn [exec]. rewrite client_recv_step by assumption. rewrite pieces_short by (rewrite ?Hlen; lia). cbn [open]. unfold aead_decrypt. cbn [k_epoch k_nonce].
  rewrite (proj2 (Nat.ltb_ge _ _)) by (rewrite Hlen; lia). change (0 =? 2 ^ 64 - 1) with false. cbv iota. rewrite Hdec, app_nil_r. reflexivity.
Qed.
End P.
