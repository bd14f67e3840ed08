(* How an enclave on GCP starts, and what it shows of itself:
   enclave/env/gcpsnp/gcpsnp.cc:49-78 (Evidence), 106-160 (Init), 179-209
   (GcpEvidenceAndEndorsements), with the tool host/cmd/svr3gcp/main.go that it
   runs.  Simplified: messages are records (protobuf carries them), the SEV device,
   the TPM and the verification are arbitrary (Tpm2Snp.v models the last); a
   temporary directory and its files can be had. *)
From Verif Require Import Base.
Open Scope N_scope.

(* shared/proto/tpm2snp.proto TPM2SNPEvidence, TPM2SNPEndorsements *)
Record evidence := Evidence { msg : bytes; sig : bytes; pcrs : bytes; akcert : bytes;
  snp : bytes; runtime : bytes; adata : bytes }.
Definition no_evidence : evidence := Evidence [] [] [] [] [] [] [].
Record endorsements := Endorsements { intermediate : bytes; vcek : bytes; ask : bytes }.

(* MergeFrom of proto3, used in gcpsnp.cc:68-69: a field that is not empty is copied. *)
Definition merge_field (a b : bytes) : bytes := match b with [] => a | _ => b end.
Definition merge (a b : evidence) : evidence :=
  {| msg := merge_field (msg a) (msg b); sig := merge_field (sig a) (sig b); pcrs := merge_field (pcrs a) (pcrs b);
     akcert := merge_field (akcert a) (akcert b); snp := merge_field (snp a) (snp b);
     runtime := merge_field (runtime a) (runtime b); adata := merge_field (adata a) (adata b) |}.

(* What gcpsnp.cc:106-160 runs on. *)
Record machine := Machine {
  (* The TPM through go-tpm-tools: message, signature, PCRs and certificate for a
     nonce at a time. *)
  tpm : N -> bytes -> option (bytes * bytes * bytes * bytes);
  (* The server of the intermediate certificate: the body of its answer, whatever
     the status; None without an answer. *)
  issuer : N -> option bytes;
  runtime_of : bytes -> option bytes;     (* d2i_X509 and AzureRuntimeDataFromCert *)
  sev : N -> bytes -> option (bytes * bytes * bytes);   (* SnpReport: report, VCEK, ASK *)
  pcrs_of : bytes -> option bytes;        (* PCRsFromString *)
  sha256 : bytes -> bytes;
  verify : N -> evidence -> endorsements -> bytes -> bool  (* Attest *)
}.

(* svr3gcp/main.go:36-129 Run, with the two files it may be asked for;
   gcpsnp.cc:191-207: any error of it is an error here.  The certificates are
   fetched once, without a look at the status. *)
Definition run_tool (m : machine) (t : N) (nonce : bytes) (want_endorsements : bool) : option (evidence * bytes) :=
  if negb (Nat.eqb (length nonce) 32) then None else
  match tpm m t nonce with
  | None => None
  | Some (q, s, p, c) =>
      let ev := Evidence q s p c [] [] [] in
      if want_endorsements then match issuer m t with None => None | Some b => Some (ev, b) end
      else Some (ev, [])
  end.

(* gcpsnp.cc:49-78, for data in its serialized form *)
Definition evidence_for (m : machine) (base : evidence) (t : N) (data : bytes) : option evidence :=
  match run_tool m t (sha256 m data) false with
  | None => None
  | Some (cur, _) =>
      let merged := merge (merge no_evidence base) cur in
      Some {| msg := msg merged; sig := sig merged; pcrs := pcrs merged; akcert := akcert merged;
              snp := snp merged; runtime := runtime merged; adata := data |}
  end.

(* gcpsnp.cc:244-261: what the ioctl leaves. *)
Record ioctl_result := IoctlResult { ret : Z; fw_error : N; vmm_error : N; status : N; report_size : N; report : bytes; certs : bytes }.
(* gcpsnp.cc:211-270 SnpReport: the descriptors that open() gives for the two devices;
   [ioctl] of a descriptor and the user data, the nonce in 64 bytes; what the
   certificates hold (sev.cc CertificatesToEndorsements) is arbitrary. *)
Definition snp_report (open1 open2 : Z) (ioctl : Z -> bytes -> ioctl_result)
    (endorse : bytes -> option (bytes * bytes)) (nonce : bytes) : outcome (option (bytes * bytes * bytes)) :=
  let fd := if (0 <? open1)%Z then open1 else open2 in
  if negb (0 <? fd)%Z then Crash else
  let r := ioctl fd (nonce ++ repeat 0 (64 - length nonce)) in
  if (ret r <? 0)%Z then Ret None else
  if negb (fw_error r =? 0) || negb (vmm_error r =? 0) || negb (status r =? 0) then Ret None else
  if negb (report_size r =? 1184) then Ret None else
  match endorse (certs r) with None => Ret None | Some (v, a) => Ret (Some (report r, v, a)) end.

(* gcpsnp.cc:106-150, not simulated, with fatal messages logged (LogLevel.v says
   what else happens); [nonce] is what is in memory where an array was not given a
   value, [t] is when the tool first runs and [t1] when it runs for the check. *)
Definition init (m : machine) (nonce : bytes) (t t1 : N) : outcome (evidence * endorsements * bytes) :=
  match run_tool m t nonce true with
  | None => Crash
  | Some (ev, inter) =>
    match runtime_of m (akcert ev) with
    | None => Crash
    | Some rt =>
      match sev m t (sha256 m rt) with
      | None => Crash
      | Some (report, v, a) =>
        let base := {| msg := msg ev; sig := sig ev; pcrs := pcrs ev; akcert := akcert ev;
                       snp := report; runtime := rt; adata := adata ev |} in
        let en := {| intermediate := inter; vcek := v; ask := a |} in
        match pcrs_of m (pcrs ev) with
        | None => Crash
        | Some local =>
          match evidence_for m base t1 [] with
          | None => Crash
          | Some e => if verify m t1 e en local then Ret (base, en, local) else Crash
          end
        end
      end
    end
  end.
