(* C63: which evidence from Azure and Google Cloud is accepted.  C64: the guest's policy.
   C65: minimum values.  C66: evidence that stops the verifier. *)
From Coq Require Import Strings.String.
From Verif Require Import Tpm2Snp Tpm2Spec Tpm2Proofs SnpSpec SnpProofs Tpm2SnpSpec Tpm2SnpProofs MinimumsSpec P_Minimums P_Codec P_Tpm2 P_Snp.

(* C63: a peer's evidence is accepted exactly if the cloud vouches for the attestation key,
   AMD vouches for the machine, the machine names that key, the key signed the PCRs and the
   hash of the peer's data, and the PCRs are those of the own machine. *)
Theorem C63_accepted_exactly w e n now roots local out : evidence_ok e ->
  (complete_verification w e n now roots local = Ret (Ok out) -> exists d, good_evidence w e n now roots local d /\ ad_key out = ad_key d) /\
  (forall d, good_evidence w e n now roots local d -> exists out, complete_verification w e n now roots local = Ret (Ok out) /\ ad_key out = ad_key d).
Proof.
  intros V. split.
  - intros H. apply complete_spec in H as (d & G & ->); [|assumption]. exists d. split; [assumption|reflexivity].
  - intros d G. eexists. split; [apply complete_spec; [assumption|]; exists d; split; [exact G|reflexivity]|reflexivity].
Qed.

Definition collision (hash : bytes -> bytes) : Prop := exists x y, x <> y /\ hash x = hash y.
(* C63: a quote serves for one key only: who is accepted with the same quote for other data
   has found two inputs with the same hash *)
Theorem C63_quote_binds_data w e n now roots local d e' n' now' roots' local' d' :
  good_evidence w e n now roots local d -> good_evidence w e' n' now' roots' local' d' -> te_msg e = te_msg e' ->
  d = d' \/ collision (w_sha256 w).
Proof.
  intros (E & N & ps & nn & _ & (q & sig & Q1 & Q2 & _ & _ & _ & _ & _ & _ & Qn) & _ & Hn & Hd)
         (E' & N' & ps' & nn' & _ & (q' & sig' & Q1' & Q2' & _ & _ & _ & _ & _ & _ & Qn') & _ & Hn' & Hd') M.
  destruct (beq_spec (te_data e) (te_data e')) as [D|D]; [left; congruence|right]. exists (te_data e), (te_data e'). split; [assumption|].
  destruct (C61_quote_unambiguous q q' Q1 Q1' ltac:(congruence)) as [X _]. congruence.
Qed.
(* C63: a report of a machine serves for one attestation key only *)
Theorem C63_report_binds_key w e n now roots E N e' n' now' roots' E' N' :
  key_vouched w e n now roots E N -> key_vouched w e' n' now' roots' E' N' ->
  snp_data (te_snp_report e) = snp_data (te_snp_report e') -> (E = E' /\ N = N') \/ collision (w_sha256 w).
Proof.
  intros (a1 & a2 & a3 & a4 & a5 & _ & _ & _ & _ & _ & _ & _ & _ & _ & D & K)
         (b1 & b2 & b3 & b4 & b5 & _ & _ & _ & _ & _ & _ & _ & _ & _ & D' & K') M.
  destruct (beq_spec (te_runtime_data e) (te_runtime_data e')) as [R|R].
  2: { right. exists (te_runtime_data e), (te_runtime_data e'). split; [assumption|congruence]. }
  left. rewrite <- R in K'.
  destruct K as (t1 & d1 & p1 & k1 & q1 & s1 & u1 & H1 & H2 & H3 & H4 & H5 & H6 & H7 & H8 & H9).
  destruct K' as (t2 & d2 & p2 & k2 & q2 & s2 & u2 & H1' & H2' & H3' & H4' & H5' & H6' & H7' & H8' & H9').
  assert (A : runtime_key w (te_runtime_data e) = Ret (Ok (s1, u1))) by (apply runtime_key_spec; exists t1, d1, p1, k1, q1; auto 10).
  assert (B : runtime_key w (te_runtime_data e) = Ret (Ok (s2, u2))) by (apply runtime_key_spec; exists t2, d2, p2, k2, q2; auto 10).
  assert (s1 = s2 /\ u1 = u2) as [-> ->] by (rewrite A in B; split; congruence). split; congruence.
Qed.
(* C63: report and runtime data are taken from their places in Azure's buffer; the runtime
   data ends at its first zero *)
Theorem C63_azure_buffer head report mid runtime rest : blen head = 32 -> blen report = 1184 -> blen mid = 20 -> ~ In 0 runtime ->
  azure_report (head ++ report ++ mid ++ runtime ++ 0 :: rest) = Some report /\
  azure_runtime_data (head ++ report ++ mid ++ runtime ++ 0 :: rest) = Some runtime.
Proof.
  intros H1 H2 H3 Z. set (s := head ++ report ++ mid ++ runtime ++ 0 :: rest).
  assert (L : blen s <? 1236 = false). { apply N.ltb_ge. unfold s. rewrite !blen_app, H1, H2, H3. lia. }
  unfold azure_report, azure_runtime_data. rewrite L. unfold s. split; f_equal.
  - rewrite field_app_r by (now rewrite H1). rewrite <- H2. unfold blen. now rewrite Nat2N.id, firstn_app, Nat.sub_diag, firstn_all, firstn_O, app_nil_r.
  - replace (N.to_nat 1236) with (length (head ++ report ++ mid)) by (rewrite !app_length; unfold blen in *; lia).
    replace (head ++ report ++ mid ++ runtime ++ 0 :: rest) with ((head ++ report ++ mid) ++ runtime ++ 0 :: rest) by now rewrite <- !app_assoc.
    assert (Sk : forall a b : bytes, skipn (length a) (a ++ b) = b) by (induction a as [|? a IH]; [reflexivity|exact IH]).
    rewrite Sk. apply text_cstr. split; [right; now exists rest|assumption].
Qed.
Lemma letter_nonzero url o : CodecSpec.letter url o <> 0.
Proof. unfold CodecSpec.letter. destruct (N.ltb o 26), (N.ltb o 52), (N.ltb o 62), (N.eqb o 62), url; lia. Qed.
Lemma rfc4648_nonzero url : forall s, ~ In 0 (CodecSpec.rfc4648 url false s).
Proof.
  fix IH 1. intros [|a [|b [|c s]]]; cbn [CodecSpec.rfc4648 app In].
  - tauto.
  - intros [H|[H|[]]]; exact (letter_nonzero _ _ H).
  - intros [H|[H|[H|[]]]]; exact (letter_nonzero _ _ H).
  - intros [H|[H|[H|[H|H]]]]; [exact (letter_nonzero _ _ H)..|exact (IH s H)].
Qed.
(* the JSON text made for a key means what it says *)
Definition own_json (e n : bytes) : json :=
  JObj [(ascii "keys", JArr [JObj [(ascii "kid", JStr (ascii "HCLAkPub")); (ascii "kty", JStr (ascii "RSA"));
    (ascii "e", JStr (CodecSpec.rfc4648 true false e)); (ascii "n", JStr (CodecSpec.rfc4648 true false n))]])].
(* how such a value is written: texts in quotes (no letter in these texts needs an escape),
   lists and objects without spaces *)
Fixpoint json_text (j : json) : bytes :=
  match j with
  | JStr s => ascii """" ++ s ++ ascii """"
  | JArr l => ascii "[" ++ (fix go l := match l with [] => [] | [x] => json_text x | x :: r => json_text x ++ ascii "," ++ go r end) l ++ ascii "]"
  | JObj m => ascii "{" ++ (fix go m := match m with
                             | [] => []
                             | [(k, x)] => ascii """" ++ k ++ ascii """:" ++ json_text x
                             | (k, x) :: r => ascii """" ++ k ++ ascii """:" ++ json_text x ++ ascii "," ++ go r end) m ++ ascii "}"
  | _ => []
  end.
(* C63: the runtime data made for a certificate's key are the JSON text with that key, and so
   name that key, if the reader of JSON reads that text right *)
Theorem C63_own_runtime_data w e n : bytes_ok e = true -> bytes_ok n = true ->
  azure_runtime_from_cert e n = json_text (own_json e n) /\
  (w_json w (json_text (own_json e n)) = Some (own_json e n) -> names_key w (azure_runtime_from_cert e n) e n).
Proof.
  intros Be Bn. pose proof (rfc4648_nonzero true e) as Ze. pose proof (rfc4648_nonzero true n) as Zn.
  assert (Ee : b64_encode b64url false e = CodecSpec.rfc4648 true false e) by exact (C42_base64_is_rfc4648 true false e Be). assert (En : b64_encode b64url false n = CodecSpec.rfc4648 true false n) by exact (C42_base64_is_rfc4648 true false n Bn).
  assert (Text : azure_runtime_from_cert e n = json_text (own_json e n)).
  { unfold azure_runtime_from_cert, own_json. rewrite Ee, En. cbn [json_text]. rewrite <- !app_assoc. reflexivity. }
  split; [exact Text|]. rewrite <- Text. intros J.
  assert (T : text (azure_runtime_from_cert e n) (azure_runtime_from_cert e n)).
  { split; [now left|]. unfold azure_runtime_from_cert. rewrite Ee, En, !in_app_iff.
    assert (G : forall k, forallb (fun c => negb (c =? 0)) k = true -> ~ In 0 k).
    { intros k H I. rewrite forallb_forall in H. specialize (H 0 I). discriminate. }
    intros [H|[H|[H|[H|H]]]]; try (now apply Ze); try (now apply Zn); revert H; apply G; reflexivity. }
  assert (Mem : forall m name v, find_member (ascii name) m = Some v -> has_member m name v) by (intros; now apply find_first).
  assert (Tx : forall m name s, find_member (ascii name) m = Some (JStr s) -> ~ In 0 s -> is_text m name s).
  { intros m name s F Z. exists s. split; [now apply Mem|]. split; [now left|assumption]. }
  exists (azure_runtime_from_cert e n). eexists. exists []. do 2 eexists.
  exists (CodecSpec.rfc4648 true false e), (CodecSpec.rfc4648 true false n).
  split; [exact T|]. split; [exact J|]. split; [apply Mem; reflexivity|]. split; [constructor|].
  split; [split; apply Tx; [reflexivity|apply no_zero_kid|reflexivity|apply no_zero_kty]|].
  rewrite <- Ee, <- En. split; [apply Tx; [reflexivity|now rewrite Ee]|]. split; [apply C42_base64_roundtrip; auto|].
  split; [apply Tx; [reflexivity|now rewrite En]|apply C42_base64_roundtrip; auto].
Qed.

(* C65: for each version in the report, the accepted value is the report's, or the peer's
   claim if that is lower; other claims are kept as they are *)
Theorem C65_reported_versions w e n now roots local out : evidence_ok e -> complete_verification w e n now roots local = Ret (Ok out) ->
  exists d, w_data w (te_data e) = Some d /\
  (forall name off, In (name, off) snp_versions -> exists b, nth_error (te_snp_report e) off = Some b /\
    lookup (ascii name) (ad_values out) = Some (match lookup (ascii name) (ad_values d) with Some c => SnpSpec.lower [b] c | None => [b] end)) /\
  (forall k, (forall name off, In (name, off) snp_versions -> k <> ascii name) -> lookup k (ad_values out) = lookup k (ad_values d)).
Proof.
  intros V H. apply complete_spec in H as (d & G & ->); [|assumption]. exists d.
  destruct G as (E & N & ps & nn & (a1 & a2 & a3 & a4 & a5 & _ & _ & _ & _ & _ & _ & _ & _ & (L & _) & _) & _ & _ & _ & Wd).
  split; [assumption|]. cbn [ad_values]. split.
  - intros name off I. pose proof (versions_in _ _ I) as O. destruct (slice_one (te_snp_report e) off) as (b & Nb & Sb). { unfold blen in L. lia. }
    exists b. split; [assumption|]. rewrite combine_lookup by (apply combine_sorted; exact Logic.I).
    rewrite mins_lookup, (sev_minimums_lookup _ _ _ I). rewrite report_slice, Sb by assumption. now destruct (lookup (ascii name) (ad_values d)).
  - intros k K. rewrite combine_lookup by (apply combine_sorted; exact Logic.I). rewrite mins_lookup, sev_minimums_other by assumption. reflexivity.
Qed.
(* C65: whoever passes the group's limits runs on a platform that meets them, whatever it
   claims *)
Theorem C65_limits_hold_for_the_machine w e n now roots local out lims name off l : evidence_ok e ->
  complete_verification w e n now roots local = Ret (Ok out) -> check_values lims (ad_values out) = Min_OK ->
  In (name, off) snp_versions -> lookup (ascii name) lims = Some (min_u8 l) ->
  exists b, nth_error (te_snp_report e) off = Some b /\ l <= b.
Proof.
  intros V H C I L. destruct (C65_reported_versions w e n now roots local out V H) as (d & _ & R & _).
  destruct (R name off I) as (b & Nb & Lk). exists b. split; [assumption|].
  apply lookup_in in Lk. destruct (proj1 (C36_present_values_partial lims (ad_values out)) C _ _ Lk _ L) as [Len Le].
  unfold min_u8 in *. destruct (lookup (ascii name) (ad_values d)) as [c|].
  - unfold SnpSpec.lower in *. destruct (blt [b] c) eqn:B.
    + rewrite ble_total_lt in Le. destruct Le as [Le|Le]; [injection Le; lia|]. apply blt_lt in Le. cbn in Le. destruct (N.compare_spec l b); try discriminate; lia.
    + destruct c as [|c0 [|c1 c]]; try discriminate. rewrite ble_total_lt in Le.
      assert (c0 <= b). { unfold blt in B. cbn in B. destruct (N.compare_spec b c0); try discriminate; lia. }
      destruct Le as [Le|Le]; [injection Le; lia|]. apply blt_lt in Le. cbn in Le. destruct (N.compare_spec l c0); try discriminate; lia.
  - rewrite ble_total_lt in Le. destruct Le as [Le|Le]; [injection Le; lia|]. apply blt_lt in Le. cbn in Le. destruct (N.compare_spec l b); try discriminate; lia.
Qed.

(* C64, why it fails here: no byte of the report but the bound data and the signature
   matters.  Any other report signed by the same key over the same data is as good: with
   debugging or migration allowed, of any version, for any software. *)
Theorem C64_policy_not_looked_at w e n now roots local out vcek key report : evidence_ok e -> bytes_ok report = true ->
  complete_verification w e n now roots local = Ret (Ok out) ->
  is_cert w (tn_vcek n) vcek -> w_pubkey w vcek = Some (PEc key) -> snp_signed w key report -> snp_data report = snp_data (te_snp_report e) ->
  exists out', complete_verification w (TEvidence (te_akcert e) report (te_runtime_data e) (te_msg e) (te_sig e) (te_pcrs e) (te_data e)) n now roots local
    = Ret (Ok out') /\ ad_key out' = ad_key out.
Proof.
  intros V B H (nv & Vc) Pk Sg Sd. apply complete_spec in H as (d & G & ->); [|assumption].
  eexists. split; [|shelve]. apply complete_spec. { destruct V as (V1 & V2 & V3 & V4). repeat split; assumption. }
  exists d. split; [|reflexivity].
  destruct G as (E & N & ps & nn & (ak & im & vcek' & ask & key' & A1 & A2 & A3 & A4 & (nv' & A5) & A6 & A7 & A8 & A9 & A10 & A11) & Q & S & Hn & Hd).
  assert (vcek' = vcek) as -> by congruence. assert (key' = key) as -> by congruence.
  exists E, N, ps, nn. split; [|auto]. exists ak, im, vcek, ask, key. cbn [te_akcert te_snp_report te_runtime_data].
  repeat (split; [first [assumption|now exists nv']|]). split; [congruence|assumption].
  Unshelve. reflexivity.
Qed.

(* C66: no evidence stops the verifier if the machine key's certificate holds an EC key and
   the runtime data is JSON with objects where they belong and ASCII keys. *)
Theorem C66_no_crash_partial w e n now roots local : evidence_ok e ->
  (forall vcek k, is_cert w (tn_vcek n) vcek -> w_pubkey w vcek = Some k -> exists ec, k = PEc ec) ->
  all_objects w (te_runtime_data e) ->
  complete_verification w e n now roots local <> Crash.
Proof.
  intros V K J. unfold complete_verification.
  assert (A : verify_akcert w e n now roots <> Crash).
  { unfold verify_akcert. destruct (w_d2i w (te_akcert e)) as [[ak nk]|]; [|discriminate]. destruct (w_d2i w (tn_intermediate n)) as [[im ni]|]; [|discriminate].
    destruct (w_chain w roots [im] ak now); [|discriminate]. cbn [negb].
    assert (R : report_verified w (te_snp_report e) (tn_vcek n) (tn_ask n) now <> Crash).
    { unfold report_verified. destruct (report_unverified (te_snp_report e)); [|discriminate].
      destruct (w_d2i w (tn_vcek n)) as [[vcek nv]|] eqn:Vc; [|discriminate]. destruct (w_d2i w (tn_ask n)) as [[ask na]|]; [|discriminate].
      destruct (w_pubkey w vcek) as [k|] eqn:P; [|discriminate]. destruct (K vcek k (ex_intro _ nv Vc) P) as [ec ->].
      destruct (w_chain w _ _ _ _); [|discriminate]. cbn [negb]. destruct (w_ecdsa w _ _ _ _); discriminate. }
    destruct (report_verified w _ _ _ _) as [[r|x]|]; [|discriminate|congruence]. cbn [bind]. destruct (beq _ _); [|discriminate]. cbn [negb].
    destruct (runtime_key_total w _ J) as (rk & -> & Asc). cbn [bind]. destruct rk as [[rte rtn]|]; [|discriminate].
    destruct (Asc rte rtn eq_refl) as [Ae An].
    pose proof (C44_seven_bit_partial b64url rte (or_intror eq_refl) Ae) as Ce. pose proof (C44_seven_bit_partial b64url rtn (or_intror eq_refl) An) as Cn.
    destruct (b64_decode b64url rte) as [[de| |]|]; [|discriminate|discriminate|congruence]. cbn [bind].
    destruct (b64_decode b64url rtn) as [[dn| |]|]; [|discriminate|discriminate|congruence]. cbn [bind].
    destruct (w_pubkey w ak) as [[]|]; try discriminate. destruct (_ || _)%bool; discriminate. }
  destruct (verify_akcert w e n now roots) as [[m|x]|]; [|discriminate|congruence]. cbn [bind].
  assert (Q : verify_tpm2 w e <> Crash).
  { destruct V as (Bm & Bs & Bp & _). unfold verify_tpm2.
    pose proof (C61_signature_read_exactly _ Bs) as Sg. pose proof (C61_quote_read_exactly _ Bm) as Qt. pose proof (C61_pcrs_read_exactly _ Bp) as Ps.
    destruct (parse_signature (te_sig e)) as [[sig|]|]; [|discriminate|destruct Sg]. cbn [bind].
    destruct (parse_report (te_msg e)) as [[msg|]|]; [|discriminate|destruct Qt]. destruct Qt as (q & _ & _ & _ & _ & Nn & Dg & _). cbn [bind].
    destruct (pcrs_from_string (te_pcrs e)) as [[ps|]|]; [|discriminate|destruct Ps]. cbn [bind].
    destruct (w_d2i w (te_akcert e)) as [[ak nk]|]; [|discriminate]. destruct (w_pubkey w ak) as [[ke kn| |]|]; try discriminate.
    destruct (w_rsa w _ _ _ _); [|discriminate]. cbn [negb]. unfold verify_pcrs. rewrite Dg, Nn. cbn [bind].
    destruct (beq _ _); discriminate. }
  destruct (verify_tpm2 w e) as [[[nn pcrs]|x]|]; [|discriminate|congruence]. cbn [bind].
  destruct (check_remote_pcrs local pcrs); [|discriminate]. cbn [negb]. destruct (beq _ _); [|discriminate]. cbn [negb].
  destruct (w_data w (te_data e)); discriminate.
Qed.
(* C66, why it fails: whoever has some certificate that AMD signed for a key of another
   kind, like AMD's own intermediate certificate, and any attestation key's certificate stops the
   verifier, with no report from any machine. *)
Theorem C66_wrong_key_crashes w e n now roots local ak im c ask k : 1184 <= blen (te_snp_report e) ->
  is_cert w (te_akcert e) ak -> is_cert w (tn_intermediate n) im -> w_chain w roots [im] ak now = true ->
  is_cert w (tn_vcek n) c -> is_cert w (tn_ask n) ask -> w_chain w (w_amd_roots w) [ask] c now = true ->
  w_pubkey w c = Some k -> (forall ec, k <> PEc ec) ->
  complete_verification w e n now roots local = Crash.
Proof.
  intros L (n1 & A) (n2 & I) C (n3 & Vc) (n4 & As) C' P K. unfold complete_verification, verify_akcert. rewrite A, I, C. cbn [negb].
  unfold report_verified. rewrite unverified_spec, (proj2 (N.ltb_ge _ _) L), Vc, As, P, C'. cbn [negb].
  destruct k as [| ec |]; [reflexivity|exfalso; now apply (K ec)|reflexivity].
Qed.

(* --- a small world --- *)
(* certificates are numbers, each signed by the one before; 3 is the attestation key's, 12
   AMD's intermediate, which is for an RSA key, and 13 the machine's *)
Definition toy_chain (roots ims : list N) (c : N) (now : Z) : bool :=
  existsb (fun r => ((c =? r + 1) || existsb (fun i => (i =? r + 1) && (c =? i + 1)) ims)%bool) roots.
Definition toy_e : bytes := [1; 0; 1].
Definition toy_n : bytes := [200; 1; 7; 9; 33].
Definition toy (doc : bytes -> option json) : world := {|
  w_cert := N;
  w_d2i := fun s => match s with [c] => Some (c, 1) | _ => None end;
  w_chain := toy_chain;
  w_pubkey := fun c => if c =? 3 then Some (PRsa toy_e toy_n) else if c =? 12 then Some (PRsa toy_e [77]) else if c =? 13 then Some (PEc [7]) else None;
  w_sha256 := fun s => firstn 32 (rev s ++ repeat 1 32);
  w_sha384 := fun s => firstn 48 (s ++ repeat 1 48);
  w_rsa := fun e n d sig => beq (firstn 32 sig) d;
  w_ecdsa := fun k d r s => r =? le_num d;
  w_json := doc;
  w_data := fun s => Some (AData s [(ascii "snp_reported_tcb_snp", [9])]);
  w_amd_roots := [11] |}.
Definition toy_json : bytes -> option json := fun _ => Some (own_json toy_e toy_n).
(* a report with this policy over these data, and its signature *)
Definition toy_report (policy data : bytes) : bytes :=
  let body := [2; 0; 0; 0; 0; 0; 0; 0] ++ policy ++ repeat 0 36 ++ [1; 0; 0; 0] ++ [3; 4; 0; 0; 0; 0; 5; 6] ++ repeat 0 16 ++ data ++ repeat 0 272
    ++ [3; 4; 0; 0; 0; 0; 5; 6] ++ repeat 0 280 in
  body ++ firstn 48 body ++ repeat 0 464.
Definition toy_pcrs : list bytes := map (fun i => repeat i 32) [0; 1; 2; 3; 4; 5; 6; 7; 8; 9; 10; 11; 12; 13; 14; 15; 16; 17; 18; 19; 20; 21; 22; 23].
Definition toy_quote (data : bytes) : bytes :=
  quote_bytes (Quote (repeat 1 32) (w_sha256 (toy toy_json) data) 1000 3 4 1 77 (w_sha256 (toy toy_json) (concat toy_pcrs))).
Definition toy_evidence (policy runtime data : bytes) : tpm2snp_evidence :=
  TEvidence [3] (toy_report policy (w_sha256 (toy toy_json) runtime)) runtime (toy_quote data)
    (signature_bytes (w_sha256 (toy toy_json) (toy_quote data) ++ repeat 0 224)) (concat toy_pcrs) data.
Definition toy_endorse : tpm2snp_endorsements := TEndorse [2] [13] [12].
Definition toy_key : bytes := repeat 42 32.
Definition toy_good : tpm2snp_evidence := toy_evidence (repeat 0 8) (azure_runtime_from_cert toy_e toy_n) toy_key.

Example x_evidence_ok : evidence_ok toy_good.
Proof. vm_compute. auto. Qed.
(* accepted; the claim of 9 for a version that is 5 is lowered *)
Example x_accepted : exists vals, complete_verification (toy toy_json) toy_good toy_endorse 0 [1] toy_pcrs = Ret (Ok (AData toy_key vals)) /\
  lookup (ascii "snp_reported_tcb_snp") vals = Some [5] /\ lookup (ascii "snp_platform_version_tee") vals = Some [4] /\ length vals = 8%nat.
Proof. eexists. split; [vm_compute; reflexivity|]. vm_compute. auto. Qed.
Example x_good : exists d, good_evidence (toy toy_json) toy_good toy_endorse 0 [1] toy_pcrs d /\ ad_key d = toy_key.
Proof.
  destruct x_accepted as (vals & H & _).
  destruct (proj1 (C63_accepted_exactly _ _ _ _ _ _ _ x_evidence_ok) H) as (d & G & E). exists d. split; [exact G|]. symmetry. exact E.
Qed.
(* other data under the same quote, other PCRs and another machine's runtime data are refused *)
Example x_refused :
  complete_verification (toy toy_json) (TEvidence [3] (te_snp_report toy_good) (te_runtime_data toy_good) (te_msg toy_good) (te_sig toy_good) (te_pcrs toy_good) (repeat 43 32))
    toy_endorse 0 [1] toy_pcrs = Ret (Err TS_DataHashMismatch) /\
  complete_verification (toy toy_json) toy_good toy_endorse 0 [1] (map (fun _ => repeat 0 32) toy_pcrs) = Ret (Err TS_PCRMismatch) /\
  complete_verification (toy toy_json) toy_good toy_endorse 0 [5] toy_pcrs = Ret (Err TS_AKChainVerify) /\
  complete_verification (toy toy_json) (TEvidence [3] (te_snp_report toy_good) [1; 2] (te_msg toy_good) (te_sig toy_good) (te_pcrs toy_good) toy_key)
    toy_endorse 0 [1] toy_pcrs = Ret (Err TS_ReportDataMismatch).
Proof. vm_compute. auto. Qed.
(* DataFromVerifiedAttestation accepts such a report, and refuses it with debugging allowed *)
Example x_sev_data :
  (exists d, sev_data (toy toy_json) (te_snp_report toy_good) (te_snp_report toy_good) [13] [12] 0 = Ret (Ok d)) /\
  sev_data (toy toy_json) (te_snp_report toy_good) (toy_report [0; 0; 8; 0; 0; 0; 0; 0] (repeat 0 32)) [13] [12] 0 = Ret (Err Sev_DebugEnabled) /\
  sev_data (toy toy_json) (te_snp_report toy_good) (toy_report [0; 0; 4; 0; 0; 0; 0; 0] (repeat 0 32)) [13] [12] 0 = Ret (Err Sev_MigrationAllowed).
Proof. split; [eexists; vm_compute; reflexivity|]. vm_compute. auto. Qed.

(* C64, refuted: a guest whose memory its host may read and write is accepted as a peer *)
Theorem C64_debug_refused_refuted : exists w e n now roots local out,
  evidence_ok e /\ complete_verification w e n now roots local = Ret (Ok out) /\
  N.testbit (le_num (slice (te_snp_report e) 8 8)) 19 = true /\ N.testbit (le_num (slice (te_snp_report e) 8 8)) 18 = true.
Proof.
  exists (toy toy_json), (toy_evidence [0; 0; 12; 0; 0; 0; 0; 0] (azure_runtime_from_cert toy_e toy_n) toy_key), toy_endorse, 0%Z, [1], toy_pcrs.
  eexists. split; [vm_compute; auto|]. split; [vm_compute; reflexivity|]. vm_compute. auto.
Qed.
(* C66, refuted: AMD's intermediate certificate in place of the machine's stops the verifier; so
   do runtime data that are not an object, a key that is not one, and a letter that is not ASCII *)
Theorem C66_no_crash_refuted :
  (exists w e n roots, evidence_ok e /\ te_snp_report e = repeat 0 1184 /\ complete_verification w e n 0 roots toy_pcrs = Crash) /\
  Forall (fun doc => complete_verification (toy (fun _ => Some doc)) toy_good toy_endorse 0 [1] toy_pcrs = Crash)
    [JStr (ascii "keys"); JObj [(ascii "keys", JArr [JNum 1])];
     JObj [(ascii "keys", JArr [JObj [(ascii "kid", JStr (ascii "HCLAkPub")); (ascii "kty", JStr (ascii "RSA")); (ascii "e", JStr [200]); (ascii "n", JStr [65])]])]].
Proof.
  split.
  - exists (toy toy_json), (TEvidence [3] (repeat 0 1184) [] [] [] [] []), (TEndorse [2] [12] [12]), [1].
    split; [vm_compute; auto|]. split; [reflexivity|]. vm_compute. reflexivity.
  - repeat constructor; vm_compute; reflexivity.
Qed.
(* the hypotheses of C66_no_crash_partial are met *)
Example x_no_crash : complete_verification (toy toy_json) toy_good toy_endorse 0 [1] toy_pcrs <> Crash.
Proof.
  apply C66_no_crash_partial; [exact x_evidence_ok| |].
  - intros vcek k [n H] P. injection H as <- <-. injection P as <-. now exists [7].
  - intros txt doc _ [= <-]. eexists. split; [reflexivity|]. intros l H. apply find_first in H. injection H as <-.
    intros j [<-|[]]. eexists. split; [reflexivity|]. intros t [H|H]; apply find_first in H; injection H as <-; intros c I; cbn in I; intuition (subst; reflexivity).
Qed.

Print Assumptions C63_accepted_exactly.
Print Assumptions C63_quote_binds_data.
Print Assumptions C63_report_binds_key.
Print Assumptions C63_azure_buffer.
Print Assumptions C63_own_runtime_data.
Print Assumptions C65_reported_versions.
Print Assumptions C65_limits_hold_for_the_machine.
Print Assumptions C64_policy_not_looked_at.
Print Assumptions C66_no_crash_partial.
Print Assumptions C66_wrong_key_crashes.
Print Assumptions C64_debug_refused_refuted.
Print Assumptions C66_no_crash_refuted.
