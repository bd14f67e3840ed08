(* C61: what a user can rely on about TPM quotes, their signatures and PCRs. *)
From Verif Require Import Tpm2 Tpm2Spec Tpm2Proofs.

(* C61: a quote is accepted exactly if it has the one accepted form; what is read from it
   is what it says; no bytes make the reader leave them. *)
Theorem C61_quote_read_exactly s : bytes_ok s = true ->
  match parse_report s with
  | Ret (Some r) =>
      exists q, quote_ok q /\ s = quote_bytes q /\
        tr_data r = s /\ key_hash r = Ret (q_key q) /\ nonce r = Ret (q_nonce q) /\ pcr_digest r = Ret (q_digest q) /\
        tr_clock r = Clock (q_millis q) (q_resets q) (q_restarts q) (q_safe q =? 1) /\ tr_firmware r = q_firmware q
  | Ret None => forall q, quote_ok q -> s <> quote_bytes q
  | Crash => False
  end.
Proof.
  intros H. destruct (parse_report s) as [[r|]|] eqn:P.
  - exact (report_parsed s r H P).
  - intros q Q ->. destruct (report_quote q Q) as (r & E & _). congruence.
  - exact (report_total s H P).
Qed.
(* C61: the form is unambiguous *)
Theorem C61_quote_unambiguous q1 q2 : quote_ok q1 -> quote_ok q2 -> quote_bytes q1 = quote_bytes q2 ->
  q_nonce q1 = q_nonce q2 /\ q_digest q1 = q_digest q2 /\ q_key q1 = q_key q2.
Proof.
  intros Q1 Q2 E. destruct (report_quote q1 Q1) as (r1 & P1 & _ & K1 & N1 & D1 & _), (report_quote q2 Q2) as (r2 & P2 & _ & K2 & N2 & D2 & _).
  rewrite E in P1. assert (r1 = r2) as -> by congruence. split; [|split]; congruence.
Qed.
(* C61: a list of PCRs is accepted exactly if it is 24 values of 32 bytes *)
Theorem C61_pcrs_read_exactly s : bytes_ok s = true ->
  match pcrs_from_string s with
  | Ret (Some ps) => pcrs_ok ps /\ s = concat ps
  | Ret None => forall ps, pcrs_ok ps -> s <> concat ps
  | Crash => False
  end.
Proof.
  intros H. unfold pcrs_from_string. destruct (blen s =? 24 * 32) eqn:E; cbn [negb].
  - destruct (pcr_loop_split 24 s 0 H ltac:(lia)) as (ps & -> & L & F & C). cbn [bind]. split; [split; assumption|now rewrite C].
  - intros ps [L F] ->. apply N.eqb_neq in E. apply E. clear E H.
    assert (G : forall n ps, length ps = n -> Forall (fun p => blen p = 32) ps -> blen (concat ps) = N.of_nat n * 32).
    { clear. induction n as [|n IH]; intros [|p ps] L F; try discriminate; [reflexivity|]. cbn [concat]. rewrite blen_app.
      inversion F; subst. rewrite (IH ps) by (cbn in L; congruence || lia). lia. }
    now rewrite (G 24%nat ps L F).
Qed.
(* C61: PCRs pass exactly if the digest in the quote is their hash *)
Theorem C61_pcrs_verified_exactly sha256 s r q ps : bytes_ok s = true -> parse_report s = Ret (Some r) -> quote_ok q -> s = quote_bytes q ->
  exists b, verify_pcrs sha256 r ps = Ret b /\ (b = true <-> q_digest q = sha256 (concat ps)).
Proof.
  intros H P Q ->. destruct (report_quote q Q) as (r' & P' & _ & _ & _ & D & _). assert (r' = r) as -> by congruence.
  unfold verify_pcrs. rewrite D. cbn [bind]. eexists. split; [reflexivity|]. rewrite beq_eq. split; congruence.
Qed.
(* C61: a signature is accepted exactly if it is RSASSA with SHA-256 and 256 bytes *)
Theorem C61_signature_read_exactly s : bytes_ok s = true ->
  match parse_signature s with
  | Ret (Some sig) => blen sig = 256 /\ s = signature_bytes sig
  | Ret None => forall sig, blen sig = 256 -> s <> signature_bytes sig
  | Crash => False
  end.
Proof.
  intros H. unfold parse_signature, or_false. cbn [bind]. destruct (blen s =? 262) eqn:E.
  2: { intros sig L ->. unfold signature_bytes in E. rewrite !blen_app, !blen_be, L in E. discriminate. }
  apply N.eqb_eq in E. destruct (cut 2 260 s E) as (a & s1 & E1 & L1 & M1). destruct (cut 2 258 s1 M1) as (b & s2 & E2 & L2 & M2).
  destruct (cut 2 256 s2 M2) as (c & sig & E3 & L3 & M3). assert (Es : s = a ++ b ++ c ++ sig) by congruence. clear E1 E2 E3.
  pose proof H as Hs. rewrite Es, !bytes_ok_app, !andb_true_iff in Hs. destruct Hs as (Oa & Ob & Oc & Os).
  assert (Ra : rd s 0 2 = Ret a) by walk Es. assert (Rb : rd s 2 2 = Ret b) by walk Es. assert (Rc : rd s 4 2 = Ret c) by walk Es.
  assert (Rs : rd s 6 256 = Ret sig) by walk Es.
  unfold rd16, rd_num. rewrite Ra, Rb, Rc, Rs. cbn [bind]. rewrite (from16 a), (from16 b), (from16 c) by assumption. cbn [bind].
  assert (U : forall sig', s = signature_bytes sig' -> a = big_endian 2 0x14 /\ b = big_endian 2 11 /\ c = big_endian 2 256).
  { intros sig' S. rewrite Es in S. unfold signature_bytes in S. unfold blen in *.
    apply app_same in S as [-> S]; [|rewrite be_length; lia]. apply app_same in S as [-> S]; [|rewrite be_length; lia].
    apply app_same in S as [-> S]; [|rewrite be_length; lia]. auto. }
  destruct (num a =? 0x14) eqn:Na.
  2: { intros sig' _ S. destruct (U sig' S) as (-> & _ & _). discriminate. }
  destruct (num b =? 0xb) eqn:Nb.
  2: { intros sig' _ S. destruct (U sig' S) as (_ & -> & _). discriminate. }
  destruct (num c =? 0x100) eqn:Nc.
  2: { intros sig' _ S. destruct (U sig' S) as (_ & _ & ->). discriminate. }
  apply eq_num16 in Na; try assumption; [|reflexivity]. apply eq_num16 in Nb; try assumption; [|reflexivity].
  apply eq_num16 in Nc; try assumption; [|reflexivity]. split; [assumption|]. rewrite Es, Na, Nb, Nc. reflexivity.
Qed.

(* a quote over a nonce, read back *)
Definition x_quote : quote := Quote (repeat 1 32) (repeat 2 32) 1000 3 4 1 0x2020031200120003 (repeat 5 32).
Example x_quote_ok : quote_ok x_quote.
Proof. repeat split. Qed.
Example x_quote_read : parse_report (quote_bytes x_quote) = Ret (Some (TpmReport (quote_bytes x_quote) 10 44 (Clock 1000 3 4 true) 0x2020031200120003 113))
  /\ rd (quote_bytes x_quote) 44 32 = Ret (repeat 2 32)
  /\ parse_report (quote_bytes x_quote ++ [0]) = Ret None /\ parse_report (firstn 144 (quote_bytes x_quote)) = Ret None.
Proof. vm_compute. auto. Qed.
Example x_signature_read : parse_signature (signature_bytes (repeat 7 256)) = Ret (Some (repeat 7 256)).
Proof. vm_compute. reflexivity. Qed.
Example x_pcrs_read : pcrs_from_string (repeat 9 768) = Ret (Some (repeat (repeat 9 32) 24)).
Proof. vm_compute. reflexivity. Qed.

Print Assumptions C61_quote_read_exactly.
Print Assumptions C61_quote_unambiguous.
Print Assumptions C61_pcrs_read_exactly.
Print Assumptions C61_pcrs_verified_exactly.
Print Assumptions C61_signature_read_exactly.
