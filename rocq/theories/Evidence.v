(* What attestation needs from outside of this repository: BoringSSL, rapidjson and
   protobuf.  Theorems hold whatever these functions are. *)
From Verif Require Export Tpm2 Minimums Codec.

(* EVP_PKEY: an RSA key by the bytes of its exponent and modulus (BN_bn2bin), an EC key,
   or one of another kind *)
Inductive pubkey := PRsa (e n : bytes) | PEc (k : bytes) | POther.
(* rapidjson's values; members of an object in the order of the text *)
Inductive json := JNull | JBool (b : bool) | JNum (n : Z) | JStr (s : bytes) | JArr (l : list json) | JObj (m : list (bytes * json)).
(* attestation.proto: AttestationData, but for its group config and limits *)
Record adata := AData { ad_key : bytes; ad_values : values }.

Record world := World {
  w_cert : Type;
  (* d2i_X509: a certificate at the start of the bytes, and how many it takes *)
  w_d2i : bytes -> option (w_cert * N);
  (* X509_verify_cert: trusted roots, intermediates, certificate, time *)
  w_chain : list w_cert -> list w_cert -> w_cert -> Z -> bool;
  (* X509_get_pubkey *)
  w_pubkey : w_cert -> option pubkey;
  w_sha256 : bytes -> bytes;
  w_sha384 : bytes -> bytes;
  (* RSA_verify(NID_sha256): exponent, modulus, digest, signature *)
  w_rsa : bytes -> bytes -> bytes -> bytes -> bool;
  (* ECDSA_do_verify: key, digest, r, s *)
  w_ecdsa : bytes -> bytes -> N -> N -> bool;
  (* rapidjson Document::Parse *)
  w_json : bytes -> option json;
  (* AttestationData::ParseFromString; maps come out in order of their keys *)
  w_data : bytes -> option adata;
  (* sev.cc:48-143: AMD's root keys *)
  w_amd_roots : list w_cert }.

(* a C++ string as a C string: up to the first zero *)
Fixpoint cstr (s : bytes) : bytes :=
  match s with [] => [] | b :: s' => if b =? 0 then [] else b :: cstr s' end.
(* strings in the source *)
Definition ascii (s : String.string) : bytes :=
  map (fun c => Ascii.N_of_ascii c) (String.list_ascii_of_string s).
(* little endian numbers *)
Fixpoint le_num (s : bytes) : N := match s with [] => 0 | b :: s' => b + 256 * le_num s' end.

(* minimums.cc:81-88 CombineValues *)
Fixpoint combine_values (from into : values) : values :=
  match from with
  | [] => into
  | (k, v) :: from' =>
      combine_values from'
        (match lookup k into with
         | None => put k v into
         | Some o => if blt v o then put k v into else into
         end)
  end.
