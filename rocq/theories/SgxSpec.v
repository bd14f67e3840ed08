(* What evidence from SGX has to be, said independently of the code that checks it. *)
From Coq Require Import Strings.String.
From Verif Require Import Tpm2SnpSpec Sgx.

(* the first claim with this name *)
Definition says (cs : claims) (name : String.string) (v : bytes) : Prop :=
  exists c1 c2, cs = c1 ++ (ascii name, v) :: c2 /\ forall x, In x c1 -> fst x <> ascii name.

(* Intel's TCB info is JSON: {"tcbInfo": {"tcbEvaluationDataNumber": n, ...}, ...} *)
Definition tcb_says (w : world) (tcb : bytes) (n : Z) : Prop :=
  exists doc info, w_json w tcb = Some (JObj doc) /\ has_member doc "tcbInfo" (JObj info) /\
    has_member info "tcbEvaluationDataNumber" (JNum n) /\ (- 2 ^ 31 <= n < 2 ^ 31)%Z.
(* the custom claims are a list that starts with a public key of 32 bytes *)
Definition names_key (w : sgx_world) (custom key : bytes) : Prop :=
  exists rest, s_unpack w custom = Some ((ascii "pk", key) :: rest) /\ blen key = 32.

(* C counts years from 1900 and months from 0 *)
Definition same_time (t : tm) (d : date) : Prop :=
  Z.of_N (d_year d) = (tm_year t + 1900)%Z /\ Z.of_N (d_month d) = (tm_mon t + 1)%Z /\ Z.of_N (d_day d) = tm_mday t /\
  Z.of_N (d_hours d) = tm_hour t /\ Z.of_N (d_minutes d) = tm_min t /\ Z.of_N (d_seconds d) = tm_sec t.
(* what gmtime_r gives for times from 1970 on *)
Definition tm_ok (t : tm) : Prop :=
  (70 <= tm_year t < 2 ^ 31 /\ 0 <= tm_mon t <= 11 /\ 1 <= tm_mday t <= 31 /\ 0 <= tm_hour t <= 23 /\ 0 <= tm_min t <= 59 /\ 0 <= tm_sec t <= 60)%Z.
Definition gmtime_ok (w : sgx_world) : Prop := forall now t, s_gmtime w now = Some t -> tm_ok t.

(* Open Enclave's verifier accepts the evidence as of now and finds these claims *)
Definition verified (w : sgx_world) (evidence endorsements : bytes) (now : Z) (cs : claims) : Prop :=
  exists t d, s_gmtime w now = Some t /\ same_time t d /\ s_verify w evidence endorsements (Some d) = Some cs.

Definition good_sgx (w : sgx_world) (own : bytes) (evidence endorsements : bytes) (now : Z) (key : bytes) (n : Z) : Prop :=
  exists cs tcb custom,
    verified w evidence endorsements now cs /\ says cs "unique_id" own /\
    says cs "sgx_tcb_info" tcb /\ tcb_says (s_world w) tcb n /\
    says cs "custom_claims_buffer" custom /\ names_key w custom key.

(* to the verifier of w, what the enclave of w' makes evidence of is vouched for now, as
   coming from an enclave with this MRENCLAVE on a machine with this TCB info *)
Definition vouched (w w' : sgx_world) (now : Z) (mrenclave tcb : bytes) : Prop :=
  forall custom evidence endorsements, s_get w' custom = Some (evidence, endorsements) ->
    exists cs, verified w evidence endorsements now cs /\ says cs "unique_id" mrenclave /\ says cs "sgx_tcb_info" tcb /\
      says cs "custom_claims_buffer" custom.
(* custom claims are read as they were written *)
Definition packs (w w' : sgx_world) : Prop := forall cs b, s_pack w' cs = Some b -> s_unpack w b = Some cs.
