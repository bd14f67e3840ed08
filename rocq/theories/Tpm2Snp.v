(* Model of enclave/attestation/tpm2snp/tpm2snp.{h,cc}: what a replica on Azure or
   Google Cloud demands of a peer's evidence. *)
From Coq Require Import Strings.String.
From Verif Require Export Snp.

(* tpm2snp.proto *)
Record tpm2snp_evidence := TEvidence { te_akcert : bytes; te_snp_report : bytes; te_runtime_data : bytes; te_msg : bytes; te_sig : bytes;
  te_pcrs : bytes; te_data : bytes }.
Record tpm2snp_endorsements := TEndorse { tn_intermediate : bytes; tn_vcek : bytes; tn_ask : bytes }.

Inductive ts_error := TS_InvalidAKCert | TS_InvalidIntermediate | TS_AKChainVerify | TS_Sev (e : sev_error) | TS_ReportDataMismatch
  | TS_RuntimeDataJSON | TS_Base64 | TS_AKCertPubKey | TS_AKCertMismatch | TS_ParseSignature | TS_ParseReport | TS_ParsePCRs
  | TS_ParseEvidence | TS_CryptoAllocate | TS_CertificateNotRSA | TS_SignatureVerify | TS_PCRVerify | TS_PCRMismatch | TS_DataHashMismatch.

(* --- rapidjson ------------------------------------------------------------------ *)
Definition find_member (name : bytes) (m : list (bytes * json)) : option json :=
  match find (fun kv => beq (fst kv) name) m with Some (_, v) => Some v | None => None end.
(* Value::HasMember, operator[]: on anything but an object an assertion fails, or with
   NDEBUG the value is taken for an object that it is not *)
Definition member (name : bytes) (v : json) : outcome (option json) :=
  match v with JObj m => Ret (find_member name m) | _ => Crash end.
(* tpm2snp.cc:214-219: the member is there, a string, and as a C string equal to `want` *)
Definition member_is (name want : bytes) (v : json) : outcome bool :=
  let* x := member name v in
  match x with Some (JStr s) => Ret (beq (cstr s) want) | _ => Ret false end.
(* tpm2snp.cc:211-225: the first key of the array that is for HCLAkPub *)
Fixpoint find_key (l : list json) : outcome (option json) :=
  match l with
  | [] => Ret None
  | k :: l' =>
      let* a := member_is (ascii "kid"%string) (ascii "HCLAkPub"%string) k in
      let* b := (if a then member_is (ascii "kty"%string) (ascii "RSA"%string) k else Ret false) in
      if b then Ret (Some k) else find_key l'
  end.
(* tpm2snp.cc:203-234: exponent and modulus in the runtime data, still in base64 *)
Definition runtime_key (w : world) (data : bytes) : outcome (res ts_error (bytes * bytes)) :=
  match w_json w (cstr data) with
  | None => Ret (Err TS_RuntimeDataJSON)
  | Some doc =>
      let* keys := member (ascii "keys"%string) doc in
      match keys with
      | Some (JArr l) =>
          if (length l <? 1)%nat then Ret (Err TS_RuntimeDataJSON) else
          let* k := find_key l in
          match k with
          | None => Ret (Err TS_RuntimeDataJSON)
          | Some k =>
              let* e := member (ascii "e"%string) k in
              match e with
              | Some (JStr e) =>
                  let* n := member (ascii "n"%string) k in
                  match n with Some (JStr n) => Ret (Ok (cstr e, cstr n)) | _ => Ret (Err TS_RuntimeDataJSON) end
              | _ => Ret (Err TS_RuntimeDataJSON)
              end
          end
      | _ => Ret (Err TS_RuntimeDataJSON)
      end
  end.

(* --- verification --------------------------------------------------------------- *)
(* tpm2snp.cc:149-257 VerifyAKCert; `mins` starts empty (line 350).  Line 198 compares
   the 32 bytes of the hash. *)
Definition verify_akcert (w : world) (e : tpm2snp_evidence) (n : tpm2snp_endorsements) (now : Z) (roots : list (w_cert w)) : outcome (res ts_error values) :=
  match w_d2i w (te_akcert e) with
  | None => Ret (Err TS_InvalidAKCert)
  | Some (ak, _) =>
  match w_d2i w (tn_intermediate n) with
  | None => Ret (Err TS_InvalidIntermediate)
  | Some (im, _) =>
  if negb (w_chain w roots [im] ak now) then Ret (Err TS_AKChainVerify) else
  let* r := report_verified w (te_snp_report e) (tn_vcek n) (tn_ask n) now in
  match r with
  | Err x => Ret (Err (TS_Sev x))
  | Ok r =>
  if negb (beq (w_sha256 w (te_runtime_data e)) (firstn 32 (rep_report_data r))) then Ret (Err TS_ReportDataMismatch) else
  let* k := runtime_key w (te_runtime_data e) in
  match k with
  | Err x => Ret (Err x)
  | Ok (rte, rtn) =>
  let* de := b64_decode b64url rte in
  match de with
  | B64_OK de =>
      let* dn := b64_decode b64url rtn in
      match dn with
      | B64_OK dn =>
          match w_pubkey w ak with
          | Some (PRsa ake akn) =>
              if (negb (beq de ake) || negb (beq dn akn))%bool then Ret (Err TS_AKCertMismatch)
              else Ret (Ok (combine_values (sev_minimums r) []))
          | _ => Ret (Err TS_AKCertPubKey)
          end
      | _ => Ret (Err TS_Base64)
      end
  | _ => Ret (Err TS_Base64)
  end end end end end.

(* tpm2snp.cc:273-290 *)
Definition CHECKED_PCRS : list nat := [2; 3; 4; 7; 8; 9; 11; 12; 13; 14]%nat.
(* tpm2snp.cc:259-297 CheckRemotePCRs *)
Definition check_remote_pcrs (local remote : list bytes) : bool :=
  fold_left (fun ok i => (ok && beq (nth i local []) (nth i remote []))%bool) CHECKED_PCRS true.

(* tpm2snp.cc:321-345 VerifyTPM2, tpm2.cc:196-216 VerifyReport: the nonce and the PCRs *)
Definition verify_tpm2 (w : world) (e : tpm2snp_evidence) : outcome (res ts_error (bytes * list bytes)) :=
  let* sig := parse_signature (te_sig e) in
  match sig with
  | None => Ret (Err TS_ParseSignature)
  | Some sig =>
  let* msg := parse_report (te_msg e) in
  match msg with
  | None => Ret (Err TS_ParseReport)
  | Some msg =>
  let* pcrs := pcrs_from_string (te_pcrs e) in
  match pcrs with
  | None => Ret (Err TS_ParsePCRs)
  | Some pcrs =>
  match w_d2i w (te_akcert e) with
  | None => Ret (Err TS_ParseEvidence)
  | Some (ak, _) =>
  match w_pubkey w ak with
  | None => Ret (Err TS_CryptoAllocate)
  | Some (PRsa ke kn) =>
      if negb (w_rsa w ke kn (w_sha256 w (tr_data msg)) sig) then Ret (Err TS_SignatureVerify) else
      let* ok := verify_pcrs (w_sha256 w) msg pcrs in
      if negb ok then Ret (Err TS_PCRVerify) else
      let* nn := nonce msg in Ret (Ok (nn, pcrs))
  | Some _ => Ret (Err TS_CertificateNotRSA)
  end end end end end.

(* tpm2snp.cc:347-377 CompleteVerification; azuresnp.cc:67-87 and gcpsnp.cc:81-100 call
   it with their roots and the PCRs of their own machine *)
Definition complete_verification (w : world) (e : tpm2snp_evidence) (n : tpm2snp_endorsements) (now : Z) (roots : list (w_cert w)) (local : list bytes)
  : outcome (res ts_error adata) :=
  let* mins := verify_akcert w e n now roots in
  match mins with
  | Err x => Ret (Err x)
  | Ok mins =>
  let* q := verify_tpm2 w e in
  match q with
  | Err x => Ret (Err x)
  | Ok (nn, pcrs) =>
  if negb (check_remote_pcrs local pcrs) then Ret (Err TS_PCRMismatch) else
  if negb (beq (w_sha256 w (te_data e)) nn) then Ret (Err TS_DataHashMismatch) else
  match w_data w (te_data e) with
  | None => Ret (Err TS_ParseEvidence)
  | Some d => Ret (Ok (AData (ad_key d) (combine_values mins (ad_values d))))
  end end end.

(* tpm2snp.cc:299-319 AzureRuntimeDataFromCert *)
Definition azure_runtime_from_cert (e n : bytes) : bytes :=
  ascii "{""keys"":[{""kid"":""HCLAkPub"",""kty"":""RSA"",""e"":"""%string ++ b64_encode b64url false e
  ++ ascii """,""n"":"""%string ++ b64_encode b64url false n ++ ascii """}]}"%string.
