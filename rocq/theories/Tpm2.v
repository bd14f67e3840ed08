(* Model of enclave/attestation/tpm2/tpm2.{h,cc}: TPM2 quotes, their signatures and PCRs.
   SHA-256 and RSA are parameters; the hash contexts do not fail. *)
From Verif Require Export RaftLog.

(* tpm2.cc:14-19 *)
Definition TPM_GENERATED_VALUE : N := 0xff544347.
Definition TPM_ST_ATTEST_QUOTE : N := 0x8018.
Definition SHA256_ALG : N := 0x000b.
Definition NONCE_SIZE : N := 32.
Definition SHA256_SIZE : N := 32.
Definition ALL_24_PCRS : N := 0x03ffffff.

(* reading n bytes from offset d of s; reading past its end is undefined behaviour *)
Definition rd (s : bytes) (d n : N) : outcome bytes :=
  if d + n <=? blen s then Ret (firstn (N.to_nat n) (skipn (N.to_nat d) s)) else Crash.
(* endian.h:9-30: n is 2, 4 or 8 *)
Definition rd_num (from : bytes -> option N) (s : bytes) (d n : N) : outcome N :=
  let* b := rd s d n in match from b with Some v => Ret v | None => Crash end.
Definition rd16 (s : bytes) (d : N) : outcome N := rd_num be16_from s d 2.
Definition rd32 (s : bytes) (d : N) : outcome N := rd_num be32_from s d 4.
Definition rd64 (s : bytes) (d : N) : outcome N := rd_num be64_from s d 8.
(* the pattern `if (bad) { LOG(ERROR); return false; }` *)
Definition or_false {A} (ok : outcome bool) (k : outcome (option A)) : outcome (option A) :=
  let* b := ok in if b then k else Ret None.

(* tpm2.h:28-33 *)
Record clock := Clock { ck_millis : N; ck_resets : N; ck_restarts : N; ck_safe : bool }.
(* tpm2.h:65-70 *)
Record tpm_report := TpmReport { tr_data : bytes; tr_key : N; tr_nonce : N; tr_clock : clock; tr_firmware : N; tr_digest : N }.

(* tpm2.cc:28-117 Report::Parse, with 22-26 FromString.  Pointers are offsets; where the
   check of the space comes before the number in a `||`, no number is read without it. *)
Definition parse_report (s : bytes) : outcome (option tpm_report) :=
  let e := blen s in
  or_false (if e <? 0 + 4 then Ret false else let* v := rd32 s 0 in Ret (v =? TPM_GENERATED_VALUE)) (
  let d := 4 in
  or_false (if e <? d + 2 then Ret false else let* v := rd16 s d in Ret (v =? TPM_ST_ATTEST_QUOTE)) (
  let d := d + 2 in
  or_false (if e <? d + SHA256_SIZE + 2 + 2 then Ret false else
            let* v := rd16 s (d + 0) in if negb (v =? 2 + SHA256_SIZE) then Ret false else
            let* v := rd16 s (d + 2) in Ret (v =? SHA256_ALG)) (
  let d := d + (2 + 2) in
  let key_offset := d in
  let d := d + SHA256_SIZE in
  or_false (if e <? d + 2 then Ret false else let* v := rd16 s d in Ret (v =? NONCE_SIZE)) (
  let d := d + 2 in
  or_false (Ret (negb (e <? d + NONCE_SIZE))) (
  let nonce_offset := d in
  let d := d + NONCE_SIZE in
  or_false (Ret (negb (e <? d + 17))) (
  let* millis := rd64 s d in
  let d := d + 8 in
  let* resets := rd32 s d in
  let d := d + 4 in
  let* restarts := rd32 s d in
  let d := d + 4 in
  let* b := rd s d 1 in
  let safe := beq b [1] in
  let d := d + 1 in
  or_false (Ret (negb (e <? d + 8))) (
  let* fw := rd64 s d in
  let d := d + 8 in
  or_false (if e <? d + 4 then Ret false else let* v := rd32 s d in Ret (v =? 1)) (
  let d := d + 4 in
  or_false (if e <? d + 2 then Ret false else let* v := rd16 s d in Ret (v =? SHA256_ALG)) (
  let d := d + 2 in
  or_false (if e <? d + 4 then Ret false else let* v := rd32 s d in Ret (v =? ALL_24_PCRS)) (
  let d := d + 4 in
  or_false (if e <? d + 2 then Ret false else let* v := rd16 s d in Ret (v =? SHA256_SIZE)) (
  let d := d + 2 in
  or_false (Ret (negb (e <? d + SHA256_SIZE))) (
  let digest_offset := d in
  let d := d + SHA256_SIZE in
  or_false (Ret (d =? e)) (
  Ret (Some (TpmReport s key_offset nonce_offset (Clock millis resets restarts safe) fw digest_offset))))))))))))))).
(* tpm2.h:43-51 key_hash, pcr_digest, nonce *)
Definition key_hash (r : tpm_report) : outcome bytes := rd (tr_data r) (tr_key r) 32.
Definition pcr_digest (r : tpm_report) : outcome bytes := rd (tr_data r) (tr_digest r) 32.
Definition nonce (r : tpm_report) : outcome bytes := rd (tr_data r) (tr_nonce r) 32.

(* tpm2.cc:138-141: n PCRs from offset d on *)
Fixpoint pcr_loop (n : nat) (s : bytes) (d : N) : outcome (list bytes) :=
  match n with
  | O => Ret []
  | S n' => let* p := rd s d 32 in let* ps := pcr_loop n' s (d + 32) in Ret (p :: ps)
  end.
(* tpm2.cc:133-143 PCRsFromString *)
Definition pcrs_from_string (s : bytes) : outcome (option (list bytes)) :=
  if negb (blen s =? 24 * 32) then Ret None else
  let* ps := pcr_loop 24 s 0 in Ret (Some ps).
(* tpm2.cc:119-131 Report::VerifyPCRs; constant.h:9-15 *)
Definition verify_pcrs (sha256 : bytes -> bytes) (r : tpm_report) (pcrs : list bytes) : outcome bool :=
  let* d := pcr_digest r in Ret (beq (sha256 (concat pcrs)) d).

(* tpm2.cc:176-194 Signature::Parse, with 170-174 FromString *)
Definition parse_signature (s : bytes) : outcome (option bytes) :=
  or_false (Ret (blen s =? 262)) (
  or_false (let* v := rd16 s 0 in Ret (v =? 0x0014)) (
  or_false (let* v := rd16 s 2 in Ret (v =? 0x000b)) (
  or_false (let* v := rd16 s 4 in Ret (v =? 0x0100)) (
  let* sig := rd s 6 256 in Ret (Some sig))))).
