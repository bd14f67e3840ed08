(* The formats of TPM quotes and signatures, as the TPM 2.0 library specification
   (part 2) gives them for the only kind that is accepted here. *)
From Verif Require Import Util.

(* the lowest n bytes of v, most significant first *)
Fixpoint big_endian (n : nat) (v : N) : bytes :=
  match n with O => [] | S k => big_endian k (v / 256) ++ [v mod 256] end.

Record quote := Quote {
  q_key : bytes;        (* hash of the signing key's name *)
  q_nonce : bytes;      (* the data the TPM was asked to certify *)
  q_millis : N; q_resets : N; q_restarts : N; q_safe : N;  (* the TPM's clock; safe is a byte *)
  q_firmware : N;
  q_digest : bytes }.   (* hash of all PCRs *)
Definition quote_ok (q : quote) : Prop :=
  blen (q_key q) = 32 /\ blen (q_nonce q) = 32 /\ blen (q_digest q) = 32 /\
  bytes_ok (q_key q) = true /\ bytes_ok (q_nonce q) = true /\ bytes_ok (q_digest q) = true /\
  q_millis q < 2 ^ 64 /\ q_resets q < 2 ^ 32 /\ q_restarts q < 2 ^ 32 /\ q_safe q < 256 /\ q_firmware q < 2 ^ 64.
(* TPMS_ATTEST: magic, type quote, the key (SHA-256), the nonce, the clock, the firmware,
   one selection: all 24 PCRs in SHA-256, and their digest *)
Definition quote_bytes (q : quote) : bytes :=
  big_endian 4 0xff544347 ++ big_endian 2 0x8018 ++
  big_endian 2 34 ++ big_endian 2 11 ++ q_key q ++
  big_endian 2 32 ++ q_nonce q ++
  big_endian 8 (q_millis q) ++ big_endian 4 (q_resets q) ++ big_endian 4 (q_restarts q) ++ [q_safe q] ++
  big_endian 8 (q_firmware q) ++
  big_endian 4 1 ++ big_endian 2 11 ++ [3; 255; 255; 255] ++
  big_endian 2 32 ++ q_digest q.

(* TPMT_SIGNATURE: RSASSA, SHA-256, 256 bytes *)
Definition signature_bytes (sig : bytes) : bytes := big_endian 2 0x14 ++ big_endian 2 11 ++ big_endian 2 256 ++ sig.
(* 24 PCRs of 32 bytes *)
Definition pcrs_ok (ps : list bytes) : Prop := length ps = 24%nat /\ Forall (fun p => blen p = 32) ps.
