From Verif Require Import Tpm2 Tpm2Spec UtilProofs.

(* --- numbers ---------------------------------------------------------------- *)
Definition num (s : bytes) : N := fold_left (fun v b => v * 256 + b) s 0.
Lemma num_snoc s b : num (s ++ [b]) = num s * 256 + b.
Proof. unfold num. now rewrite fold_left_app. Qed.
Lemma bytes_ok_app a b : bytes_ok (a ++ b) = (bytes_ok a && bytes_ok b)%bool.
Proof. apply forallb_app. Qed.
Lemma byte_ok_lt b : byte_ok b = true <-> b < 256.
Proof. unfold byte_ok. apply N.ltb_lt. Qed.
Lemma be_length n v : length (big_endian n v) = n.
Proof. revert v; induction n as [|n IH]; intros v; cbn; [reflexivity|]. rewrite app_length, IH. cbn. lia. Qed.
Lemma be_ok n v : bytes_ok (big_endian n v) = true.
Proof.
  revert v; induction n as [|n IH]; intros v; [reflexivity|]. cbn. rewrite bytes_ok_app, IH. cbn [bytes_ok forallb andb].
  rewrite (proj2 (byte_ok_lt _)); [reflexivity|]. apply N.mod_lt. discriminate.
Qed.
Lemma num_be n v : num (big_endian n v) = v mod 256 ^ N.of_nat n.
Proof.
  revert v; induction n as [|n IH]; intros v.
  - cbn. now rewrite N.mod_1_r.
  - cbn [big_endian]. rewrite num_snoc, IH. replace (N.of_nat (S n)) with (1 + N.of_nat n) by lia.
    rewrite N.pow_add_r, N.pow_1_r, N.mod_mul_r by (try discriminate; apply N.pow_nonzero; discriminate). lia.
Qed.
Lemma be_num s : bytes_ok s = true -> big_endian (length s) (num s) = s.
Proof.
  induction s as [|b s IH] using rev_ind; intros H; [reflexivity|].
  rewrite bytes_ok_app in H. apply andb_true_iff in H as [H Hb]. cbn in Hb. rewrite andb_true_r in Hb. apply byte_ok_lt in Hb.
  rewrite app_length, Nat.add_comm. cbn [plus big_endian length]. rewrite num_snoc.
  rewrite N.div_add_l, N.div_small, N.add_0_r, IH by (assumption || discriminate).
  now rewrite N.add_comm, N.mod_add, N.mod_small by (assumption || discriminate).
Qed.
Lemma num_lt s : bytes_ok s = true -> num s < 256 ^ blen s.
Proof.
  intros H. rewrite <- (be_num s H) at 1. rewrite num_be. apply N.mod_lt. apply N.pow_nonzero. discriminate.
Qed.
Lemma num_iff n s v : bytes_ok s = true -> length s = n -> v < 256 ^ N.of_nat n -> (num s =? v) = true <-> s = big_endian n v.
Proof.
  intros H L V. rewrite N.eqb_eq. split.
  - intros <-. subst n. symmetry. now apply be_num.
  - intros ->. rewrite num_be. now apply N.mod_small.
Qed.

Lemma ok_cons b s : bytes_ok (b :: s) = true -> b < 256 /\ bytes_ok s = true.
Proof. cbn. rewrite andb_true_iff, byte_ok_lt. tauto. Qed.
Lemma from16 f : blen f = 2 -> bytes_ok f = true -> be16_from f = Some (num f).
Proof.
  unfold blen. destruct f as [|a [|b [|]]]; cbn [length]; try lia. intros _ H.
  apply ok_cons in H as [Ha H]. apply ok_cons in H as [Hb _]. cbn [be16_from num fold_left]. f_equal.
  rewrite !N.shiftl_mul_pow2, (lor_disjoint _ (b * 2 ^ 0) 8); [|apply mul_mod_zero; lia|pows; lia]. pows. lia.
Qed.
Lemma from32 f : blen f = 4 -> bytes_ok f = true -> be32_from f = Some (num f).
Proof.
  unfold blen. destruct f as [|a [|b [|c [|d [|]]]]]; cbn [length]; try lia. intros _ H.
  apply ok_cons in H as [Ha H]. apply ok_cons in H as [Hb H]. apply ok_cons in H as [Hc H]. apply ok_cons in H as [Hd _].
  rewrite be32_from_sum by assumption. unfold num. cbn [fold_left]. f_equal. pows. lia.
Qed.
Lemma from64 f : blen f = 8 -> bytes_ok f = true -> be64_from f = Some (num f).
Proof.
  unfold blen. destruct f as [|a [|b [|c [|d [|e [|g [|h [|i [|]]]]]]]]]; cbn [length]; try lia. intros _ H.
  apply ok_cons in H as [Ha H]. apply ok_cons in H as [Hb H]. apply ok_cons in H as [Hc H]. apply ok_cons in H as [Hd H].
  apply ok_cons in H as [He H]. apply ok_cons in H as [Hg H]. apply ok_cons in H as [Hh H]. apply ok_cons in H as [Hi _].
  rewrite be64_from_sum by assumption. unfold num. cbn [fold_left]. f_equal. pows. lia.
Qed.

(* --- reading ---------------------------------------------------------------- *)
Lemma rd_len s d n f : rd s d n = Ret f -> blen f = n.
Proof.
  unfold rd. destruct (_ <=? _) eqn:E; intros [= <-]. unfold blen in *. rewrite firstn_length, skipn_length. lia.
Qed.
Lemma bytes_ok_firstn n s : bytes_ok s = true -> bytes_ok (firstn n s) = true.
Proof.
  revert s; induction n as [|n IH]; intros [|b s] H; try reflexivity. cbn in *. rewrite andb_true_iff in *. intuition.
Qed.
Lemma bytes_ok_skipn n s : bytes_ok s = true -> bytes_ok (skipn n s) = true.
Proof.
  revert s; induction n as [|n IH]; intros [|b s] H; try reflexivity; try assumption. cbn in *. rewrite andb_true_iff in H. apply IH. tauto.
Qed.
Lemma rd_in s d n : bytes_ok s = true -> d + n <= blen s -> exists f, rd s d n = Ret f /\ blen f = n /\ bytes_ok f = true.
Proof.
  intros H L. unfold rd. rewrite (proj2 (N.leb_le _ _) L). eexists. split; [reflexivity|].
  split; [unfold blen in *; rewrite firstn_length, skipn_length; lia|]. now apply bytes_ok_firstn, bytes_ok_skipn.
Qed.
Lemma rd16_in s d : bytes_ok s = true -> d + 2 <= blen s -> exists v, rd16 s d = Ret v.
Proof. intros H L. unfold rd16, rd_num. destruct (rd_in s d 2 H L) as (f & -> & F & O). cbn [bind]. rewrite from16 by assumption. eauto. Qed.
Lemma rd32_in s d : bytes_ok s = true -> d + 4 <= blen s -> exists v, rd32 s d = Ret v.
Proof. intros H L. unfold rd32, rd_num. destruct (rd_in s d 4 H L) as (f & -> & F & O). cbn [bind]. rewrite from32 by assumption. eauto. Qed.
Lemma rd64_in s d : bytes_ok s = true -> d + 8 <= blen s -> exists v, rd64 s d = Ret v.
Proof. intros H L. unfold rd64, rd_num. destruct (rd_in s d 8 H L) as (f & -> & F & O). cbn [bind]. rewrite from64 by assumption. eauto. Qed.
Lemma blen_app a b : blen (a ++ b) = blen a + blen b.
Proof. unfold blen. rewrite app_length. lia. Qed.
Lemma rd_skip f r d n : blen f <= d -> rd (f ++ r) d n = rd r (d - blen f) n.
Proof.
  intros H. unfold rd. rewrite blen_app. replace (d + n <=? blen f + blen r) with (d - blen f + n <=? blen r) by lia.
  destruct (_ <=? _); [|reflexivity]. do 2 f_equal. rewrite skipn_app. unfold blen in *.
  rewrite skipn_all2 by lia. cbn [app]. f_equal. lia.
Qed.
Lemma rd_skip' f r d d' n : d = blen f + d' -> rd (f ++ r) d n = rd r d' n.
Proof. intros ->. rewrite rd_skip by lia. f_equal. lia. Qed.
Lemma rd_here f r d n : d = 0 -> n = blen f -> rd (f ++ r) d n = Ret f.
Proof.
  intros -> ->. unfold rd. rewrite blen_app. replace (_ <=? _) with true by lia. cbn [N.to_nat skipn].
  unfold blen. rewrite Nat2N.id, firstn_app, firstn_all, Nat.sub_diag. cbn [firstn]. now rewrite app_nil_r.
Qed.
Lemma rd_all f d n : d = 0 -> n = blen f -> rd f d n = Ret f.
Proof. intros H1 H2. rewrite <- (app_nil_r f) at 1. now apply rd_here. Qed.
Lemma cut n m s : blen s = n + m -> exists f r, s = f ++ r /\ blen f = n /\ blen r = m.
Proof.
  intros H. exists (firstn (N.to_nat n) s), (skipn (N.to_nat n) s). rewrite firstn_skipn. split; [reflexivity|].
  unfold blen in *. rewrite firstn_length, skipn_length. lia.
Qed.

Lemma eq_num16 s v : blen s = 2 -> bytes_ok s = true -> v < 65536 -> (num s =? v) = true <-> s = big_endian 2 v.
Proof. intros. apply num_iff; unfold blen in *; try assumption; try lia. Qed.
Lemma eq_num32 s v : blen s = 4 -> bytes_ok s = true -> v < 4294967296 -> (num s =? v) = true <-> s = big_endian 4 v.
Proof. intros. apply num_iff; unfold blen in *; try assumption; try lia. Qed.

(* --- the quote -------------------------------------------------------------- *)
Ltac step1 s H e :=
  match e with
  | if ?b then _ else _ => destruct b eqn:?; cbn [bind negb]
  | bind ?e' _ => step1 s H e'
  | rd16 s ?d => let v := fresh "v" in destruct (rd16_in s d H ltac:(lia)) as [v ->]; cbn [bind]
  | rd32 s ?d => let v := fresh "v" in destruct (rd32_in s d H ltac:(lia)) as [v ->]; cbn [bind]
  | rd64 s ?d => let v := fresh "v" in destruct (rd64_in s d H ltac:(lia)) as [v ->]; cbn [bind]
  | rd s ?d 1 => let v := fresh "v" in destruct (rd_in s d 1 H ltac:(lia)) as (v & -> & _); cbn [bind]
  end.
Lemma report_other s : bytes_ok s = true -> blen s <> 145 -> parse_report s = Ret None.
Proof.
  intros H L. unfold parse_report, or_false, NONCE_SIZE, SHA256_SIZE. cbv zeta. cbn [bind].
  repeat match goal with
  | |- Ret None = Ret None => reflexivity
  | |- ?e = _ => step1 s H e
  end; lia.
Qed.

Ltac walk Es :=
  rewrite Es;
  repeat match goal with
  | |- rd _ 0 _ = _ => fail 1
  | L : blen ?f = ?k |- rd (?f ++ ?r) ?d ?n = _ =>
      let d' := eval vm_compute in (d - k) in rewrite (rd_skip' f r d d' n) by (rewrite L; reflexivity)
  end; first [apply rd_here; [reflexivity|symmetry; assumption] | apply rd_all; [reflexivity|symmetry; assumption]].
Lemma report_fields f0 f1 f2 f3 key f5 nn c1 c2 c3 sf fw f12 f13 f14 f15 dg s :
  s = f0 ++ f1 ++ f2 ++ f3 ++ key ++ f5 ++ nn ++ c1 ++ c2 ++ c3 ++ sf ++ fw ++ f12 ++ f13 ++ f14 ++ f15 ++ dg ->
  bytes_ok s = true ->
  blen f0 = 4 -> blen f1 = 2 -> blen f2 = 2 -> blen f3 = 2 -> blen key = 32 -> blen f5 = 2 -> blen nn = 32 ->
  blen c1 = 8 -> blen c2 = 4 -> blen c3 = 4 -> blen sf = 1 -> blen fw = 8 -> blen f12 = 4 -> blen f13 = 2 -> blen f14 = 4 ->
  blen f15 = 2 -> blen dg = 32 ->
  parse_report s =
  (if ((num f0 =? 0xff544347) && (num f1 =? 0x8018) && (num f2 =? 34) && (num f3 =? 11) && (num f5 =? 32)
       && (num f12 =? 1) && (num f13 =? 11) && (num f14 =? 0x03ffffff) && (num f15 =? 32))%bool
   then Ret (Some (TpmReport s 10 44 (Clock (num c1) (num c2) (num c3) (beq sf [1])) (num fw) 113))
   else Ret None) /\
  rd s 10 32 = Ret key /\ rd s 44 32 = Ret nn /\ rd s 113 32 = Ret dg.
Proof.
  intros Es H L0 L1 L2 L3 Lk L5 Ln Lc1 Lc2 Lc3 Lsf Lfw L12 L13 L14 L15 Ld.
  assert (Ls : blen s = 145) by (subst s; rewrite !blen_app; lia).
  pose proof H as Hs. rewrite Es in Hs. rewrite !bytes_ok_app, !andb_true_iff in Hs.
  destruct Hs as (O0 & O1 & O2 & O3 & Ok & O5 & On & Oc1 & Oc2 & Oc3 & Osf & Ofw & O12 & O13 & O14 & O15 & Od).
  assert (R0 : rd s 0 4 = Ret f0) by walk Es. assert (R1 : rd s 4 2 = Ret f1) by walk Es.
  assert (R2 : rd s 6 2 = Ret f2) by walk Es. assert (R3 : rd s 8 2 = Ret f3) by walk Es.
  assert (Rk : rd s 10 32 = Ret key) by walk Es. assert (R5 : rd s 42 2 = Ret f5) by walk Es.
  assert (Rn : rd s 44 32 = Ret nn) by walk Es. assert (R7 : rd s 76 8 = Ret c1) by walk Es.
  assert (R8 : rd s 84 4 = Ret c2) by walk Es. assert (R9 : rd s 88 4 = Ret c3) by walk Es.
  assert (R10 : rd s 92 1 = Ret sf) by walk Es. assert (R11 : rd s 93 8 = Ret fw) by walk Es.
  assert (R12 : rd s 101 4 = Ret f12) by walk Es. assert (R13 : rd s 105 2 = Ret f13) by walk Es.
  assert (R14 : rd s 107 4 = Ret f14) by walk Es. assert (R15 : rd s 111 2 = Ret f15) by walk Es.
  assert (Rd : rd s 113 32 = Ret dg) by walk Es.
  split; [|auto].
  assert (A : forall d v f, rd s d 2 = Ret f -> blen f = 2 -> bytes_ok f = true -> v = d -> rd16 s v = Ret (num f)).
  { intros d v f R L O ->. unfold rd16, rd_num. rewrite R. cbn [bind]. now rewrite from16. }
  assert (B : forall d v f, rd s d 4 = Ret f -> blen f = 4 -> bytes_ok f = true -> v = d -> rd32 s v = Ret (num f)).
  { intros d v f R L O ->. unfold rd32, rd_num. rewrite R. cbn [bind]. now rewrite from32. }
  assert (C : forall d v f, rd s d 8 = Ret f -> blen f = 8 -> bytes_ok f = true -> v = d -> rd64 s v = Ret (num f)).
  { intros d v f R L O ->. unfold rd64, rd_num. rewrite R. cbn [bind]. now rewrite from64. }
  assert (D : forall v, v = 92 -> rd s v 1 = Ret sf) by (intros v ->; exact R10).
  assert (E : forall v, v <= 145 -> (blen s <? v) = false) by (intros; lia).
  assert (F : forall v, v = 145 -> (v =? blen s) = true) by (intros; lia).
  clear Es H Ls Rk Rn Rd R10.
  unfold parse_report, or_false. cbv zeta.
  rewrite (E (0 + 4)) by (vm_compute; discriminate). rewrite (B 0 0 f0 R0 L0 O0 eq_refl). cbn [bind]. unfold TPM_GENERATED_VALUE.
  destruct (num f0 =? _); [|reflexivity]. cbn [andb].
  rewrite (E (4 + 2)) by (vm_compute; discriminate). rewrite (A 4 4 f1 R1 L1 O1 eq_refl). cbn [bind]. unfold TPM_ST_ATTEST_QUOTE.
  destruct (num f1 =? _); [|reflexivity]. cbn [andb].
  rewrite (E (4 + 2 + SHA256_SIZE + 2 + 2)) by (vm_compute; discriminate). rewrite (A 6 _ f2 R2 L2 O2) by reflexivity. cbn [bind].
  replace (2 + SHA256_SIZE) with 34 by reflexivity.
  destruct (num f2 =? 34); [|reflexivity]. cbn [andb negb bind].
  rewrite (A 8 _ f3 R3 L3 O3) by reflexivity. cbn [bind]. replace SHA256_ALG with 11 by reflexivity.
  destruct (num f3 =? 11); [|reflexivity]. cbn [andb].
  rewrite E by (vm_compute; discriminate). rewrite (A 42 _ f5 R5 L5 O5) by reflexivity. cbn [bind]. replace (num f5 =? NONCE_SIZE) with (num f5 =? 32) by reflexivity.
  destruct (num f5 =? 32); [|reflexivity]. cbn [andb].
  rewrite E by (vm_compute; discriminate). cbn [negb bind]. rewrite E by (vm_compute; discriminate). cbn [negb bind].
  rewrite (C 76 _ c1 R7 Lc1 Oc1) by reflexivity. cbn [bind]. rewrite (B 84 _ c2 R8 Lc2 Oc2) by reflexivity. cbn [bind].
  rewrite (B 88 _ c3 R9 Lc3 Oc3) by reflexivity. cbn [bind]. rewrite D by reflexivity. cbn [bind].
  rewrite E by (vm_compute; discriminate). cbn [negb bind]. rewrite (C 93 _ fw R11 Lfw Ofw) by reflexivity. cbn [bind].
  rewrite E by (vm_compute; discriminate). rewrite (B 101 _ f12 R12 L12 O12) by reflexivity. cbn [bind].
  destruct (num f12 =? 1); [|reflexivity]. cbn [andb].
  rewrite E by (vm_compute; discriminate). rewrite (A 105 _ f13 R13 L13 O13) by reflexivity. cbn [bind].
  destruct (num f13 =? 11); [|reflexivity]. cbn [andb].
  rewrite E by (vm_compute; discriminate). rewrite (B 107 _ f14 R14 L14 O14) by reflexivity. cbn [bind]. unfold ALL_24_PCRS.
  destruct (num f14 =? _); [|reflexivity]. cbn [andb].
  rewrite E by (vm_compute; discriminate). rewrite (A 111 _ f15 R15 L15 O15) by reflexivity. cbn [bind].
  replace (num f15 =? SHA256_SIZE) with (num f15 =? 32) by reflexivity.
  destruct (num f15 =? 32); [|reflexivity]. cbn [andb].
  rewrite E by (vm_compute; discriminate). cbn [negb bind]. rewrite F by reflexivity. reflexivity.
Qed.
(* what was read from the bytes of a quote *)
Definition reads (s : bytes) (r : tpm_report) (q : quote) : Prop :=
  tr_data r = s /\ key_hash r = Ret (q_key q) /\ nonce r = Ret (q_nonce q) /\ pcr_digest r = Ret (q_digest q) /\
  tr_clock r = Clock (q_millis q) (q_resets q) (q_restarts q) (q_safe q =? 1) /\ tr_firmware r = q_firmware q.

Lemma blen_be n v : blen (big_endian n v) = N.of_nat n.
Proof. unfold blen. now rewrite be_length. Qed.
Lemma num_be_small n v : v < 256 ^ N.of_nat n -> num (big_endian n v) = v.
Proof. intros H. rewrite num_be. now apply N.mod_small. Qed.

Lemma quote_bytes_ok q : quote_ok q -> bytes_ok (quote_bytes q) = true.
Proof.
  intros (L1 & L2 & L3 & O1 & O2 & O3 & B1 & B2 & B3 & B4 & B5). unfold quote_bytes.
  rewrite !bytes_ok_app, !be_ok, O1, O2, O3. cbn [andb bytes_ok forallb]. rewrite (proj2 (byte_ok_lt _) B4). reflexivity.
Qed.
Lemma report_quote q : quote_ok q -> exists r, parse_report (quote_bytes q) = Ret (Some r) /\ reads (quote_bytes q) r q.
Proof.
  intros Q. pose proof (quote_bytes_ok q Q) as Ok. destruct Q as (L1 & L2 & L3 & O1 & O2 & O3 & B1 & B2 & B3 & B4 & B5).
  destruct (report_fields (big_endian 4 0xff544347) (big_endian 2 0x8018) (big_endian 2 34) (big_endian 2 11) (q_key q) (big_endian 2 32) (q_nonce q)
    (big_endian 8 (q_millis q)) (big_endian 4 (q_resets q)) (big_endian 4 (q_restarts q)) [q_safe q] (big_endian 8 (q_firmware q))
    (big_endian 4 1) (big_endian 2 11) [3; 255; 255; 255] (big_endian 2 32) (q_digest q) (quote_bytes q) eq_refl Ok) as (P & K & Nn & D);
    try (now rewrite blen_be); try assumption; try reflexivity.
  rewrite P. rewrite (num_be_small 8 (q_millis q)), (num_be_small 4 (q_resets q)), (num_be_small 4 (q_restarts q)), (num_be_small 8 (q_firmware q)) by assumption.
  match goal with |- context [if ?b then _ else _] => replace b with true by reflexivity end.
  eexists. split; [reflexivity|]. unfold reads, key_hash, nonce, pcr_digest. cbn [tr_data tr_key tr_nonce tr_digest tr_clock tr_firmware].
  rewrite K, Nn, D. repeat split. f_equal. cbn [beq]. now rewrite andb_true_r.
Qed.
Lemma report_parsed s r : bytes_ok s = true -> parse_report s = Ret (Some r) -> exists q, quote_ok q /\ s = quote_bytes q /\ reads s r q.
Proof.
  intros H P. destruct (N.eq_dec (blen s) 145) as [L|L]; [|rewrite (report_other s H L) in P; discriminate].
  destruct (cut 4 141 s L) as (f0 & r0 & E0 & L0 & M0). destruct (cut 2 139 r0 M0) as (f1 & r1 & E1 & L1 & M1).
  destruct (cut 2 137 r1 M1) as (f2 & r2 & E2 & L2 & M2). destruct (cut 2 135 r2 M2) as (f3 & r3 & E3 & L3 & M3).
  destruct (cut 32 103 r3 M3) as (key & r4 & E4 & L4 & M4). destruct (cut 2 101 r4 M4) as (f5 & r5 & E5 & L5 & M5).
  destruct (cut 32 69 r5 M5) as (nn & r6 & E6 & L6 & M6). destruct (cut 8 61 r6 M6) as (c1 & r7 & E7 & L7 & M7).
  destruct (cut 4 57 r7 M7) as (c2 & r8 & E8 & L8 & M8). destruct (cut 4 53 r8 M8) as (c3 & r9 & E9 & L9 & M9).
  destruct (cut 1 52 r9 M9) as (sf & r10 & E10 & L10 & M10). destruct (cut 8 44 r10 M10) as (fw & r11 & E11 & L11 & M11).
  destruct (cut 4 40 r11 M11) as (f12 & r12 & E12 & L12 & M12). destruct (cut 2 38 r12 M12) as (f13 & r13 & E13 & L13 & M13).
  destruct (cut 4 34 r13 M13) as (f14 & r14 & E14 & L14 & M14). destruct (cut 2 32 r14 M14) as (f15 & dg & E15 & L15 & M15).
  assert (Es : s = f0 ++ f1 ++ f2 ++ f3 ++ key ++ f5 ++ nn ++ c1 ++ c2 ++ c3 ++ sf ++ fw ++ f12 ++ f13 ++ f14 ++ f15 ++ dg) by congruence.
  destruct (report_fields f0 f1 f2 f3 key f5 nn c1 c2 c3 sf fw f12 f13 f14 f15 dg s Es H) as (P' & K & Nn & D); try assumption; try lia.
  clear E0 E1 E2 E3 E4 E5 E6 E7 E8 E9 E10 E11 E12 E13 E14 E15.
  pose proof H as Hs. rewrite Es in Hs. rewrite !bytes_ok_app, !andb_true_iff in Hs.
  destruct Hs as (O0 & O1 & O2 & O3 & Ok & O5 & On & Oc1 & Oc2 & Oc3 & Osf & Ofw & O12 & O13 & O14 & O15 & Od).
  rewrite P' in P. match type of P with (if ?b then _ else _) = _ => destruct b eqn:C; [|discriminate] end. injection P as <-.
  rewrite !andb_true_iff in C. destruct C as ((((((((C0 & C1) & C2) & C3) & C5) & C12) & C13) & C14) & C15).
  apply eq_num32 in C0; try assumption; [|reflexivity]. apply eq_num16 in C1; try assumption; [|reflexivity].
  apply eq_num16 in C2; try assumption; [|reflexivity]. apply eq_num16 in C3; try assumption; [|reflexivity].
  apply eq_num16 in C5; try assumption; [|reflexivity]. apply eq_num32 in C12; try assumption; [|reflexivity].
  apply eq_num16 in C13; try assumption; [|reflexivity]. apply eq_num32 in C14; try assumption; [|reflexivity].
  apply eq_num16 in C15; try assumption; [|reflexivity].
  destruct sf as [|b [|]]; unfold blen in L10; cbn [length] in L10; try lia. clear L10.
  assert (Bb : b < 256) by (apply ok_cons in Osf as [? _]; assumption).
  exists (Quote key nn (num c1) (num c2) (num c3) b (num fw) dg).
  assert (Bnd : forall f n, bytes_ok f = true -> blen f = n -> num f < 256 ^ n) by (intros f n O <-; now apply num_lt).
  split; [|split].
  - unfold quote_ok. cbn [q_key q_nonce q_millis q_resets q_restarts q_safe q_firmware q_digest].
    repeat split; try assumption; try lia; try apply (Bnd _ _ Oc1 L7); try apply (Bnd _ _ Oc2 L8); try apply (Bnd _ _ Oc3 L9); apply (Bnd _ _ Ofw L11).
  - rewrite Es at 1. unfold quote_bytes. cbn [q_key q_nonce q_millis q_resets q_restarts q_safe q_firmware q_digest].
    assert (B : forall f n, bytes_ok f = true -> blen f = N.of_nat n -> big_endian n (num f) = f).
    { intros f n O Lf. rewrite <- (be_num f O) at 2. f_equal. unfold blen in Lf. lia. }
    rewrite (B c1 8%nat), (B c2 4%nat), (B c3 4%nat), (B fw 8%nat) by assumption.
    rewrite C0, C1, C2, C3, C5, C12, C13, C14, C15. reflexivity.
  - unfold reads, key_hash, nonce, pcr_digest. cbn [tr_data tr_key tr_nonce tr_digest tr_clock tr_firmware q_key q_nonce q_millis q_resets q_restarts q_safe q_firmware q_digest].
    rewrite K, Nn, D. repeat split. f_equal. cbn [beq]. now rewrite andb_true_r.
Qed.
Lemma report_total s : bytes_ok s = true -> parse_report s <> Crash.
Proof.
  intros H P. destruct (N.eq_dec (blen s) 145) as [L|L]; [|rewrite (report_other s H L) in P; discriminate].
  revert P. unfold parse_report, or_false, NONCE_SIZE, SHA256_SIZE. cbv zeta. cbn [bind].
  repeat match goal with
  | |- Ret _ = Crash -> False => discriminate
  | |- ?e = _ -> _ => step1 s H e
  end.
Qed.

(* --- PCRs and signatures ------------------------------------------------------ *)
Lemma skipn_twice {A} n m (l : list A) : skipn n (skipn m l) = skipn (m + n) l.
Proof. revert l; induction m as [|m IH]; intros [|x l]; cbn; auto. apply skipn_nil. Qed.
Lemma rd_eq s d n f : rd s d n = Ret f -> f = firstn (N.to_nat n) (skipn (N.to_nat d) s).
Proof. unfold rd. destruct (_ <=? _); congruence. Qed.
Lemma pcr_loop_split n s d : bytes_ok s = true -> d + 32 * N.of_nat n = blen s ->
  exists ps, pcr_loop n s d = Ret ps /\ length ps = n /\ Forall (fun p => blen p = 32) ps /\ concat ps = skipn (N.to_nat d) s.
Proof.
  intros H. revert d; induction n as [|n IH]; intros d L; cbn [pcr_loop].
  - exists []. repeat split; auto. cbn. symmetry. apply skipn_all2. unfold blen in L. lia.
  - destruct (rd_in s d 32 H ltac:(lia)) as (p & R & Lp & _). rewrite R. cbn [bind].
    destruct (IH (d + 32) ltac:(lia)) as (ps & -> & Lps & F & C). cbn [bind]. exists (p :: ps). cbn [length concat].
    repeat split; auto. rewrite C, (rd_eq _ _ _ _ R).
    replace (N.to_nat (d + 32)) with (N.to_nat d + 32)%nat by lia. rewrite <- skipn_twice.
    apply (firstn_skipn (N.to_nat 32)).
Qed.
Lemma app_same (a b c d : bytes) : length a = length c -> a ++ b = c ++ d -> a = c /\ b = d.
Proof.
  revert c; induction a as [|x a IH]; intros [|y c] L E; try discriminate; [auto|]. cbn in *. injection E as -> E.
  destruct (IH c ltac:(lia) E) as [-> ->]. auto.
Qed.
Lemma concat_inj (ps qs : list bytes) n : length ps = length qs -> Forall (fun p => blen p = n) ps -> Forall (fun p => blen p = n) qs ->
  concat ps = concat qs -> ps = qs.
Proof.
  revert qs; induction ps as [|p ps IH]; intros [|q qs] L F G E; try discriminate; [reflexivity|]. cbn in E.
  inversion F as [|? ? Lp F']; inversion G as [|? ? Lq G']; subst. apply app_same in E as [-> E]; [|unfold blen in *; lia].
  f_equal. apply IH; auto.
Qed.
