(* Model of attestation on SGX: enclave/env/sgx/sgx.cc (Environment's constructor, Evidence,
   Attest) and enclave/attestation/oe/attestation.cc.

   Open Enclave's functions, protobuf, rapidjson and the C library are arbitrary functions.
   Not modelled: metrics, logging, freeing of memory, failure of protobuf to serialize. *)
From Coq Require Import Strings.String.
From Verif Require Export Tpm2Snp Util.

(* oe_claim_t: name, a C string, and value *)
Definition claims := list (bytes * bytes).
(* struct tm and oe_datetime_t, whose fields are uint32_t *)
Record tm := Tm { tm_year : Z; tm_mon : Z; tm_mday : Z; tm_hour : Z; tm_min : Z; tm_sec : Z }.
Record date := Date { d_year : N; d_month : N; d_day : N; d_hours : N; d_minutes : N; d_seconds : N }.
(* attestation.proto: AttestationData, as given to Evidence; the config and the limits by their bytes *)
Record own_data := Own { o_key : bytes; o_config : bytes; o_limits : bytes }.

Record sgx_world := SgxWorld {
  s_world : world;
  (* oe_verify_evidence for SGX: evidence, endorsements, the time if there is a policy *)
  s_verify : bytes -> bytes -> option date -> option claims;
  (* oe_serialize_custom_claims, oe_deserialize_custom_claims *)
  s_pack : claims -> option bytes;
  s_unpack : bytes -> option claims;
  (* oe_get_evidence of this enclave for custom claims: evidence and endorsements *)
  s_get : bytes -> option (bytes * bytes);
  (* AttestationData::SerializeAsString *)
  s_serialize : own_data -> bytes;
  (* gmtime_r; None: the year has no int, and the result is not written *)
  s_gmtime : Z -> option tm }.

Inductive sgx_error := SGX_AttestationFailure | SGX_MissingMRENCLAVE | SGX_WrongMRENCLAVE | SGX_CustomClaimsMissing | SGX_CustomClaimsDeserialize
  | SGX_PubkeyMissing | SGX_PubkeyInvalidSize | SGX_SerializeCustomClaims | SGX_GetEvidence.

(* sgx.cc:26-29; Open Enclave's bits/evidence.h and attestation/sgx/evidence.h, not in /repo *)
Definition UNATTESTED : bytes := ascii "UNATTESTED EVIDENCE:"%string.
Definition CLAIM_PK : bytes := ascii "pk"%string.
Definition CLAIM_CONFIG : bytes := ascii "config"%string.
Definition CLAIM_LIMITS : bytes := ascii "minimum_limits"%string.
Definition OE_UNIQUE_ID : bytes := ascii "unique_id"%string.
Definition OE_CUSTOM : bytes := ascii "custom_claims_buffer"%string.
Definition OE_TCB_INFO : bytes := ascii "sgx_tcb_info"%string.

(* attestation.cc:34-40 FindClaim *)
Fixpoint find_claim (cs : claims) (name : bytes) : option bytes :=
  match cs with [] => None | (n, v) :: cs' => if beq n name then Some v else find_claim cs' name end.

(* attestation.cc:42-83 ReadKeyFromVerifiedClaims.  Line 72 reads the first of the custom
   claims, even if there is none. *)
Definition read_key (w : sgx_world) (cs : claims) : outcome (res sgx_error bytes) :=
  match find_claim cs OE_CUSTOM with
  | None => Ret (Err SGX_CustomClaimsMissing)
  | Some c =>
      match s_unpack w c with
      | None => Ret (Err SGX_CustomClaimsDeserialize)
      | Some [] => Crash
      | Some ((name, key) :: _) =>
          if negb (beq name CLAIM_PK) then Ret (Err SGX_PubkeyMissing) else
          if negb (blen key =? 32) then Ret (Err SGX_PubkeyInvalidSize) else Ret (Ok key)
      end
  end.
(* attestation.cc:104-134 TcbEvaluationDataNumber: an int, put into a uint64_t.  A number
   that is not whole is no JNum here. *)
Definition tcb_number (w : sgx_world) (cs : claims) : outcome (res sgx_error N) :=
  match find_claim cs OE_TCB_INFO with
  | None => Ret (Err SGX_AttestationFailure)
  | Some t =>
      match w_json (s_world w) t with
      | None => Ret (Err SGX_AttestationFailure)
      | Some doc =>
          let* info := member (ascii "tcbInfo"%string) doc in
          match info with
          | Some (JObj m) =>
              match find_member (ascii "tcbEvaluationDataNumber"%string) m with
              | Some (JNum n) =>
                  if ((- 2 ^ 31 <=? n) && (n <? 2 ^ 31))%Z%bool then Ret (Ok (Z.to_N (n mod 2 ^ 64))) else Ret (Err SGX_AttestationFailure)
              | _ => Ret (Err SGX_AttestationFailure)
              end
          | _ => Ret (Err SGX_AttestationFailure)
          end
      end
  end.
(* sgx.cc:272-291 ValidateStandardClaims: the error, if there is one *)
Definition validate (expected : bytes) (cs : claims) : outcome (option sgx_error) :=
  match find_claim cs OE_UNIQUE_ID with
  | None => Ret (Some SGX_MissingMRENCLAVE)
  | Some actual => let* same := ct_equals actual expected in Ret (if same then None else Some SGX_WrongMRENCLAVE)
  end.
(* sgx.cc:293-309 SecsToOEDatetime; the fields are not set if gmtime_r fails *)
Definition u32 (z : Z) : N := Z.to_N (z mod 2 ^ 32).
Definition to_date (w : sgx_world) (secs : Z) : outcome date :=
  match s_gmtime w secs with
  | None => Crash
  | Some t => Ret (Date ((u32 (tm_year t) + 1900) mod 2 ^ 32) ((u32 (tm_mon t) + 1) mod 2 ^ 32) (u32 (tm_mday t)) (u32 (tm_hour t)) (u32 (tm_min t)) (u32 (tm_sec t)))
  end.

(* the environment: simulated, or the MRENCLAVE that is expected *)
Definition sgx_env := option bytes.

(* sgx.cc:54-128 Evidence *)
Definition sgx_evidence (w : sgx_world) (simulated : bool) (d : own_data) : res sgx_error (bytes * bytes) :=
  if simulated then Ok (UNATTESTED ++ s_serialize w d, []) else
  match s_pack w [(CLAIM_PK, o_key d); (CLAIM_CONFIG, o_config d); (CLAIM_LIMITS, o_limits d)] with
  | None => Err SGX_SerializeCustomClaims
  | Some c => match s_get w c with None => Err SGX_GetEvidence | Some e => Ok e end
  end.
(* sgx.cc:33-46, 245-270: the constructor, GetMRENCLAVE; attestation.cc:85-102 VerifyAndReadClaims *)
Definition sgx_start (w : sgx_world) (simulated : bool) : outcome sgx_env :=
  if simulated then Ret None else
  match sgx_evidence w false (Own (repeat 0 32) [] []) with
  | Err _ => Crash
  | Ok (e, n) =>
      match s_verify w e n None with
      | None => Crash
      | Some cs => match find_claim cs OE_UNIQUE_ID with None => Crash | Some id => Ret (Some id) end
      end
  end.
(* sgx.cc:141-207 Attest.  std::string::substr(0, n) is the string if that is shorter. *)
Definition sgx_attest (w : sgx_world) (env : sgx_env) (evidence endorsements : bytes) (now : Z) : outcome (res sgx_error adata) :=
  match env with
  | None =>
      let n := length UNATTESTED in
      if negb (beq (firstn n evidence) UNATTESTED) then Ret (Err SGX_AttestationFailure) else
      match w_data (s_world w) (skipn n evidence) with None => Ret (Err SGX_AttestationFailure) | Some d => Ret (Ok d) end
  | Some expected =>
      let* d := to_date w now in
      match s_verify w evidence endorsements (Some d) with
      | None => Ret (Err SGX_AttestationFailure)
      | Some cs =>
          let* v := validate expected cs in
          match v with
          | Some e => Ret (Err e)
          | None =>
              let* t := tcb_number w cs in
              match t with
              | Err e => Ret (Err e)
              | Ok t =>
                  let* k := read_key w cs in
                  match k with
                  | Err e => Ret (Err e)
                  | Ok k => Ret (Ok (AData k [(ascii "sgx_tcb_evaluation_data_number"%string, min_u64 t)]))
                  end
              end
          end
      end
  end.
