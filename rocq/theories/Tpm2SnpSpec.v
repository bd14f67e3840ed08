(* What evidence from Azure and Google Cloud has to be, said independently of the code
   that checks it. *)
From Coq Require Import Strings.String.
From Verif Require Import Tpm2Spec SnpSpec Tpm2Snp.

(* the bytes are a certificate *)
Definition is_cert (w : world) (der : bytes) (c : w_cert w) : Prop := exists n, w_d2i w der = Some (c, n).

(* --- JSON --- *)
(* the first member of an object with this name *)
Definition has_member (m : list (bytes * json)) (name : String.string) (v : json) : Prop :=
  exists m1 m2, m = m1 ++ (ascii name, v) :: m2 /\ forall x, In x m1 -> fst x <> ascii name.
(* the string up to its first zero byte is s *)
Definition text (t s : bytes) : Prop := (t = s \/ exists r, t = s ++ 0 :: r) /\ ~ In 0 s.
Definition is_text (m : list (bytes * json)) (name : String.string) (s : bytes) : Prop := exists t, has_member m name (JStr t) /\ text t s.
(* a JSON web key for the TPM's attestation key *)
Definition ak_jwk (m : list (bytes * json)) : Prop :=
  is_text m "kid" (ascii "HCLAkPub") /\ is_text m "kty" (ascii "RSA").
(* the runtime data is JSON and the first such key in it has exponent E and modulus N *)
Definition names_key (w : world) (data E N : bytes) : Prop :=
  exists txt doc pre k post e n,
    text data txt /\ w_json w txt = Some (JObj doc) /\ has_member doc "keys" (JArr (pre ++ JObj k :: post)) /\
    Forall (fun j => exists m, j = JObj m /\ ~ ak_jwk m) pre /\ ak_jwk k /\
    is_text k "e" e /\ b64_decode b64url e = Ret (B64_OK E) /\
    is_text k "n" n /\ b64_decode b64url n = Ret (B64_OK N).

(* if it is JSON, it is an object, its keys are objects, and what they say in e and n is ASCII *)
Definition all_objects (w : world) (data : bytes) : Prop :=
  forall txt doc, text data txt -> w_json w txt = Some doc -> exists m, doc = JObj m /\
    forall l, has_member m "keys" (JArr l) -> forall j, In j l -> exists k, j = JObj k /\
      forall t, has_member k "e" (JStr t) \/ has_member k "n" (JStr t) -> forall c, In c t -> c < 128.

(* --- the SNP report (AMD SEV-SNP ABI) --- *)
Definition slice (s : bytes) (off n : nat) : bytes := firstn n (skipn off s).
(* the first 1184 bytes are a report that the key signed *)
Definition snp_signed (w : world) (key report : bytes) : Prop :=
  1184 <= blen report /\
  w_ecdsa w key (w_sha384 w (slice report 0 672)) (le_num (slice report 672 48)) (le_num (slice report 744 48)) = true.
Definition snp_data (report : bytes) : bytes := slice report 80 32.
(* the versions in a report that groups can set minimums for *)
Definition snp_versions : list (String.string * nat) :=
  [("snp_platform_version_boot_loader", 56); ("snp_platform_version_tee", 57);
   ("snp_platform_version_snp", 62); ("snp_platform_version_microcode", 63);
   ("snp_reported_tcb_boot_loader", 384); ("snp_reported_tcb_tee", 385);
   ("snp_reported_tcb_snp", 390); ("snp_reported_tcb_microcode", 391)]%string%nat.

(* --- the whole evidence --- *)
(* the attestation key ak with this RSA key is vouched for by the cloud, and the SNP report,
   vouched for by AMD, says that it belongs to the machine *)
Definition key_vouched (w : world) (e : tpm2snp_evidence) (n : tpm2snp_endorsements) (now : Z) (roots : list (w_cert w)) (E N : bytes) : Prop :=
  exists ak im vcek ask key,
    is_cert w (te_akcert e) ak /\ is_cert w (tn_intermediate n) im /\ w_chain w roots [im] ak now = true /\
    w_pubkey w ak = Some (PRsa E N) /\
    is_cert w (tn_vcek n) vcek /\ is_cert w (tn_ask n) ask /\ w_chain w (w_amd_roots w) [ask] vcek now = true /\
    w_pubkey w vcek = Some (PEc key) /\ snp_signed w key (te_snp_report e) /\
    snp_data (te_snp_report e) = w_sha256 w (te_runtime_data e) /\ names_key w (te_runtime_data e) E N.
(* the TPM quotes its PCRs and a nonce with this key *)
Definition quoted (w : world) (e : tpm2snp_evidence) (E N : bytes) (pcrs : list bytes) (nonce : bytes) : Prop :=
  exists q sig,
    quote_ok q /\ te_msg e = quote_bytes q /\ blen sig = 256 /\ te_sig e = signature_bytes sig /\
    w_rsa w E N (w_sha256 w (te_msg e)) sig = true /\
    pcrs_ok pcrs /\ te_pcrs e = concat pcrs /\ q_digest q = w_sha256 w (te_pcrs e) /\ q_nonce q = nonce.
Definition same_software (local remote : list bytes) : Prop :=
  forall i, In i [2; 3; 4; 7; 8; 9; 11; 12; 13; 14]%nat -> nth i remote [] = nth i local [].
(* protobuf's bytes *)
Definition evidence_ok (e : tpm2snp_evidence) : Prop :=
  bytes_ok (te_msg e) = true /\ bytes_ok (te_sig e) = true /\ bytes_ok (te_pcrs e) = true /\ bytes_ok (te_snp_report e) = true.
Definition good_evidence (w : world) (e : tpm2snp_evidence) (n : tpm2snp_endorsements) (now : Z) (roots : list (w_cert w)) (local : list bytes)
  (d : adata) : Prop :=
  exists E N pcrs nonce,
    key_vouched w e n now roots E N /\ quoted w e E N pcrs nonce /\ same_software local pcrs /\
    nonce = w_sha256 w (te_data e) /\ w_data w (te_data e) = Some d.
