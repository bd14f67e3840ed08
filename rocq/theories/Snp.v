(* Model of enclave/attestation/sev/sev.{h,cc} and of the parts of tpm2snp.cc and
   gcpsnp.cc that take SNP reports and certificates from the machine.

   struct attestation_report comes from a submodule that is not in /repo; its layout is
   AMD's (SEV-SNP Firmware ABI, ATTESTATION_REPORT): 1184 bytes, of which the last 512
   are the signature.  Allocations do not fail. *)
From Coq Require Import Strings.String.
From Verif Require Export Evidence.

(* --- attestation_report ------------------------------------------------------ *)
Definition REPORT_SIZE : N := 1184.
Definition field (r : bytes) (off n : N) : bytes := firstn (N.to_nat n) (skipn (N.to_nat off) r).
Definition rep_version (r : bytes) : N := le_num (field r 0 4).
Definition rep_policy (r : bytes) : N := le_num (field r 8 8).
Definition rep_sig_algo (r : bytes) : N := le_num (field r 0x34 4).
Definition rep_flags (r : bytes) : N := le_num (field r 0x48 4).
Definition rep_report_data (r : bytes) : bytes := field r 0x50 64.
Definition rep_measurement (r : bytes) : bytes := field r 0x90 48.
Definition rep_host_data (r : bytes) : bytes := field r 0xc0 32.
(* platform_version and reported_tcb: boot_loader, tee, four reserved bytes, snp, microcode *)
Definition rep_platform (r : bytes) (i : N) : bytes := field r (0x38 + i) 1.
Definition rep_tcb (r : bytes) (i : N) : bytes := field r (0x180 + i) 1.
Definition rep_signed (r : bytes) : bytes := field r 0 0x2a0.
Definition rep_sig_r (r : bytes) : N := le_num (field r 0x2a0 48).
Definition rep_sig_s (r : bytes) : N := le_num (field r 0x2e8 48).
(* attestation.h of the same submodule *)
Definition POLICY_MIGRATE_MA_MASK : N := 2 ^ 18.
Definition POLICY_DEBUG_MASK : N := 2 ^ 19.
Definition SIG_ALGO_ECDSA_P384_SHA384 : N := 1.
(* sev.cc:145-146 *)
Definition FLAGS_KEY_MASK : N := N.lor 4 8.
Definition FLAGS_KEY_VCEK : N := 0.

Inductive sev_error := Sev_MigrationAllowed | Sev_DebugEnabled | Sev_UnsupportedReport | Sev_MeasurementMismatch
  | Sev_HostDataMismatch | Sev_EvidenceTooSmall | Sev_EndorsementBadCert | Sev_CryptoAllocate | Sev_ChainVerify | Sev_SignatureVerify
  | Sev_EntryTooLarge | Sev_CertTooLarge.
Inductive res (E A : Type) := Ok (a : A) | Err (e : E).
Arguments Ok {E A}. Arguments Err {E A}.

(* sev.cc:148-160 ValidateReport *)
Definition validate_report (r : bytes) : option sev_error :=
  if negb (N.land (rep_policy r) POLICY_MIGRATE_MA_MASK =? 0) then Some Sev_MigrationAllowed
  else if negb (N.land (rep_policy r) POLICY_DEBUG_MASK =? 0) then Some Sev_DebugEnabled
  else if (negb (rep_version r =? 2) || negb (rep_sig_algo r =? SIG_ALGO_ECDSA_P384_SHA384)
           || negb (N.land (rep_flags r) FLAGS_KEY_MASK =? FLAGS_KEY_VCEK))%bool then Some Sev_UnsupportedReport
  else None.
(* sev.cc:162-170 AllowRemote *)
Definition allow_remote (local remote : bytes) : option sev_error :=
  match validate_report remote with
  | Some e => Some e
  | None =>
      if negb (beq (rep_measurement local) (rep_measurement remote)) then Some Sev_MeasurementMismatch
      else if negb (beq (rep_host_data local) (rep_host_data remote)) then Some Sev_HostDataMismatch
      else None
  end.
(* sev.cc:172-180 ReportFromUnverifiedBuffer *)
Definition report_unverified (s : bytes) : res sev_error bytes :=
  if blen s <? REPORT_SIZE then Err Sev_EvidenceTooSmall else Ok (field s 0 REPORT_SIZE).

(* sev.cc:184-196 MinimumsFromReport *)
Definition sev_minimums (r : bytes) : values :=
  put (ascii "snp_platform_version_boot_loader") (rep_platform r 0)
  (put (ascii "snp_platform_version_tee") (rep_platform r 1)
  (put (ascii "snp_platform_version_snp") (rep_platform r 6)
  (put (ascii "snp_platform_version_microcode") (rep_platform r 7)
  (put (ascii "snp_reported_tcb_boot_loader") (rep_tcb r 0)
  (put (ascii "snp_reported_tcb_tee") (rep_tcb r 1)
  (put (ascii "snp_reported_tcb_snp") (rep_tcb r 6)
  (put (ascii "snp_reported_tcb_microcode") (rep_tcb r 7) [])))))))%string.

(* sev.cc:285-364 ReportFromVerifiedBuffer.  A null key given to ECDSA_do_verify (line
   358), which is what EVP_PKEY_get0_EC_KEY gives for a key of another kind, is
   dereferenced. *)
Definition report_verified (w : world) (buffer vcek_der ask_der : bytes) (now : Z) : outcome (res sev_error bytes) :=
  match report_unverified buffer with
  | Err e => Ret (Err e)
  | Ok r =>
      match w_d2i w vcek_der, w_d2i w ask_der with
      | Some (vcek, _), Some (ask, _) =>
          match w_pubkey w vcek with
          | None => Ret (Err Sev_CryptoAllocate)
          | Some k =>
              if negb (w_chain w (w_amd_roots w) [ask] vcek now) then Ret (Err Sev_ChainVerify) else
              let md := w_sha384 w (rep_signed r) in
              match k with
              | PEc ec => if w_ecdsa w ec md (rep_sig_r r) (rep_sig_s r) then Ret (Ok r) else Ret (Err Sev_SignatureVerify)
              | _ => Crash
              end
          end
      | _, _ => Ret (Err Sev_EndorsementBadCert)
      end
  end.

(* sev.cc:366-384 DataFromVerifiedAttestation, once the endorsements are parsed; only
   tests call it.  env::PublicKey is 32 bytes. *)
Definition sev_data (w : world) (local evidence vcek_der ask_der : bytes) (now : Z) : outcome (res sev_error adata) :=
  let* r := report_verified w evidence vcek_der ask_der now in
  match r with
  | Err e => Ret (Err e)
  | Ok r =>
      match allow_remote local r with
      | Some e => Ret (Err e)
      | None => Ret (Ok (AData (firstn 32 (rep_report_data r)) (combine_values (sev_minimums r) [])))
      end
  end.

(* --- the certificate table ----------------------------------------------------- *)
(* sev.proto SevSnpEndorsements *)
Record sev_endorsements := SevEnd { se_vcek : bytes; se_ask : bytes; se_ark : bytes; se_vlek : bytes; se_crl : bytes }.
(* sev.cc:42-46 *)
Definition UUID_VCEK : bytes := [0x63; 0xda; 0x75; 0x8d; 0xe6; 0x64; 0x45; 0x64; 0xad; 0xc5; 0xf4; 0xb9; 0x3b; 0xe8; 0xac; 0xcd].
Definition UUID_ASK : bytes := [0x4a; 0xb7; 0xb3; 0x79; 0xbb; 0xac; 0x4f; 0xe4; 0xa0; 0x2f; 0x05; 0xae; 0xf3; 0x27; 0xc7; 0x82].
Definition UUID_ARK : bytes := [0xc0; 0xb4; 0x06; 0xa4; 0xa8; 0x03; 0x49; 0x52; 0x97; 0x43; 0x3f; 0xb6; 0x01; 0x4c; 0xd0; 0xae].
Definition UUID_VLEK : bytes := [0xa8; 0x07; 0x4b; 0xc2; 0xa2; 0x5a; 0x48; 0x3e; 0xaa; 0xe6; 0x39; 0xc0; 0x45; 0xa0; 0xb8; 0xa1].
Definition UUID_CRL : bytes := [0x92; 0xf8; 0x1b; 0xc3; 0x58; 0x11; 0x4d; 0x3d; 0x97; 0xff; 0xd1; 0x9f; 0x88; 0xdc; 0x67; 0xea].
(* sev.cc:31-35, 233 *)
Definition ENTRY_SIZE : N := 24.

(* sev.cc:256-275; the five UUIDs differ in their first byte *)
Definition set_cert (uuid cert : bytes) (e : sev_endorsements) : sev_endorsements :=
  let '(SevEnd vcek ask ark vlek crl) := e in
  if beq uuid UUID_VCEK then SevEnd cert ask ark vlek crl
  else if beq uuid UUID_ASK then SevEnd vcek cert ark vlek crl
  else if beq uuid UUID_ARK then SevEnd vcek ask cert vlek crl
  else if beq uuid UUID_VLEK then SevEnd vcek ask ark cert crl
  else if beq uuid UUID_CRL then SevEnd vcek ask ark vlek cert
  else e.
(* sev.cc:236-276: the loop from entry i on.  The fuel is one turn for each entry that
   fits; certs_size is the size of the buffer. *)
Fixpoint cert_loop (fuel : nat) (certs : bytes) (i : N) (e : sev_endorsements) : outcome (res sev_error sev_endorsements) :=
  match fuel with
  | O => Ret (Err Sev_EntryTooLarge)
  | S fuel' =>
      let entry_end := ENTRY_SIZE * (i + 1) mod 2 ^ 32 in
      if blen certs <? entry_end then Ret (Err Sev_EntryTooLarge) else
      let* entry := rd certs (ENTRY_SIZE * i) ENTRY_SIZE in
      if beq entry (repeat 0 24) then Ret (Ok e) else
      let offset := le_num (field entry 16 4) in
      let len := le_num (field entry 20 4) in
      let cert_end := (offset + len) mod 2 ^ 32 in
      if ((blen certs <? offset) || (blen certs <? cert_end))%bool then Ret (Err Sev_CertTooLarge) else
      let* cert := rd certs offset len in
      cert_loop fuel' certs (i + 1) (set_cert (field entry 0 16) cert e)
  end.
(* sev.cc:230-279 CertificatesToEndorsements *)
Definition certs_to_endorsements (certs : bytes) (e : sev_endorsements) : outcome (res sev_error sev_endorsements) :=
  cert_loop (S (length certs)) certs 0 e.

(* --- Azure's buffer ------------------------------------------------------------- *)
(* tpm2snp.cc:130-135 SNPReportBufferFromAzureBuffer *)
Definition azure_report (s : bytes) : option bytes :=
  if blen s <? 1236 then None else Some (field s 32 1184).
(* tpm2snp.cc:137-147 RuntimeDataBufferFromAzureBuffer *)
Definition azure_runtime_data (s : bytes) : option bytes :=
  if blen s <? 1236 then None else Some (cstr (skipn (N.to_nat 1236) s)).
