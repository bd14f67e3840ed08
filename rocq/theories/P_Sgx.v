(* C82: which evidence from SGX is accepted.  C83: evidence of another form. *)
From Coq Require Import Strings.String.
From Verif Require Import Minimums MinimumsSpec P_Minimums Tpm2SnpSpec Tpm2SnpProofs UtilProofs Sgx SgxSpec SgxProofs.

(* C82: a peer's evidence is accepted exactly if Open Enclave verifies it as of now, it is
   from an enclave with the own MRENCLAVE, its TCB info has an evaluation number and its
   custom claims start with a public key; what it yields is that key and that number. *)
Theorem C82_accepted_exactly w own evidence endorsements now : gmtime_ok w ->
  (forall out, sgx_attest w (Some own) evidence endorsements now = Ret (Ok out) ->
     exists key n, good_sgx w own evidence endorsements now key n /\ ad_key out = key /\
       ((0 <= n)%Z -> ad_values out = [(ascii "sgx_tcb_evaluation_data_number", min_u64 (Z.to_N n))])) /\
  (forall key n, good_sgx w own evidence endorsements now key n ->
     exists out, sgx_attest w (Some own) evidence endorsements now = Ret (Ok out) /\ ad_key out = key /\
       ((0 <= n)%Z -> ad_values out = [(ascii "sgx_tcb_evaluation_data_number", min_u64 (Z.to_N n))])).
Proof.
  intros G.
  assert (V : forall n, (- 2 ^ 31 <= n < 2 ^ 31)%Z -> (0 <= n)%Z -> Z.to_N (n mod 2 ^ 64) = Z.to_N n).
  { intros n R P. now rewrite Z.mod_small by lia. }
  split.
  - intros out H. apply attest_spec in H as (key & n & H & ->); [|assumption]. exists key, n. split; [assumption|]. split; [reflexivity|].
    intros P. destruct H as (_ & _ & _ & _ & _ & _ & (_ & _ & _ & _ & _ & R) & _). cbn [ad_values]. now rewrite V.
  - intros key n H. eexists. split; [apply attest_spec; [assumption|]; exists key, n; split; [exact H|reflexivity]|]. split; [reflexivity|].
    intros P. destruct H as (_ & _ & _ & _ & _ & _ & (_ & _ & _ & _ & _ & R) & _). cbn [ad_values]. now rewrite V.
Qed.

(* C82: the own MRENCLAVE is what the verifier says of the own evidence; an enclave that is
   not simulated does not start without one *)
Theorem C82_own_identity w env : sgx_start w false = Ret env ->
  exists own custom evidence endorsements cs, env = Some own /\ s_get w custom = Some (evidence, endorsements) /\
    s_verify w evidence endorsements None = Some cs /\ says cs "unique_id" own.
Proof.
  unfold sgx_start, sgx_evidence. destruct (s_pack w _) as [c|]; [|discriminate]. destruct (s_get w c) as [[e n]|] eqn:G; [|discriminate].
  destruct (s_verify w e n None) as [cs|] eqn:V; [|discriminate]. destruct (find_claim cs OE_UNIQUE_ID) as [id|] eqn:F; [|discriminate].
  intros [= <-]. exists id, c, e, n, cs. split; [reflexivity|]. split; [assumption|]. split; [assumption|]. now apply find_claim_spec.
Qed.

(* C82: evidence of an enclave with another MRENCLAVE is refused *)
Theorem C82_other_enclave_refused w own other evidence endorsements now cs : gmtime_ok w ->
  verified w evidence endorsements now cs -> says cs "unique_id" other -> other <> own ->
  sgx_attest w (Some own) evidence endorsements now = Ret (Err SGX_WrongMRENCLAVE).
Proof.
  intros G (t & d & T & St & V) U Ne. unfold sgx_attest. destruct (to_date_ok w now t T (G _ _ T)) as (d' & -> & St'). cbn [bind].
  rewrite (same_time_fun _ _ _ St' St), V. unfold validate, OE_UNIQUE_ID. apply find_claim_spec in U. rewrite U, ct_equals_spec. cbn [bind].
  now destruct (beq_spec other own).
Qed.

(* C82: peers of the same build accept each other: the evidence that one makes of its key
   yields that key, as long as it is vouched for *)
Theorem C82_same_build_accepted w w' own now tcb n d evidence endorsements : gmtime_ok w ->
  vouched w w' now own tcb -> tcb_says (s_world w) tcb n -> packs w w' -> blen (o_key d) = 32 ->
  sgx_evidence w' false d = Ok (evidence, endorsements) ->
  exists out, sgx_attest w (Some own) evidence endorsements now = Ret (Ok out) /\ ad_key out = o_key d.
Proof.
  intros G V T P L E. unfold sgx_evidence in E. destruct (s_pack w' _) as [c|] eqn:Pk; [|discriminate]. destruct (s_get w' c) as [e|] eqn:Gt; [|discriminate].
  injection E as ->. destruct (V _ _ _ Gt) as (cs & Vd & U & Tc & Cu).
  destruct (C82_accepted_exactly w own evidence endorsements now G) as [_ H]. destruct (H (o_key d) n) as (out & A & B & _); [|now exists out].
  exists cs, tcb, c. split; [assumption|]. split; [assumption|]. split; [assumption|]. split; [assumption|]. split; [assumption|].
  apply P in Pk. eexists. split; [exact Pk|assumption].
Qed.

(* C82: a limit that a group has on the evaluation number holds for what the TCB info says *)
Theorem C82_minimum_holds w own evidence endorsements now out key n s limit : gmtime_ok w ->
  sgx_attest w (Some own) evidence endorsements now = Ret (Ok out) -> good_sgx w own evidence endorsements now key n -> (0 <= n)%Z ->
  limit < 2 ^ 64 -> lookup (ascii "sgx_tcb_evaluation_data_number") s = Some (min_u64 limit) ->
  (check_values s (ad_values out) = Min_OK <-> (Z.of_N limit <= n)%Z).
Proof.
  intros G A H P L S. destruct (C82_accepted_exactly w own evidence endorsements now G) as [_ X]. destruct (X _ _ H) as (out' & A' & _ & V).
  rewrite A in A'. injection A' as <-. rewrite (V P). destruct H as (_ & _ & _ & _ & _ & _ & (_ & _ & _ & _ & _ & R) & _).
  rewrite (C36_numbers_partial s _ limit (Z.to_N n) L) by (assumption || lia). lia.
Qed.

(* C82: evidence that only names its data is for simulated enclaves, and no other is for them *)
Theorem C82_simulated w evidence endorsements now out :
  sgx_attest w None evidence endorsements now = Ret (Ok out) <->
  exists data, evidence = ascii "UNATTESTED EVIDENCE:" ++ data /\ w_data (s_world w) data = Some out.
Proof.
  unfold sgx_attest. change (ascii "UNATTESTED EVIDENCE:") with UNATTESTED. split.
  - destruct (beq_spec (firstn (length UNATTESTED) evidence) UNATTESTED) as [E|]; cbn [negb]; [|discriminate].
    destruct (w_data _ _) as [d|] eqn:D; [|discriminate]. intros [= <-]. exists (skipn (length UNATTESTED) evidence). split; [|assumption].
    rewrite <- E at 1. symmetry. apply firstn_skipn.
  - intros (data & -> & D). rewrite firstn_app, Nat.sub_diag, firstn_all, firstn_O, app_nil_r, beq_refl. cbn [negb].
    rewrite skipn_app, Nat.sub_diag, skipn_all. cbn [app skipn]. now rewrite D.
Qed.

(* C83, part: as long as the own build's enclaves have custom claims, Intel's TCB info is a
   JSON object and the year fits into an int, evidence is answered *)
Theorem C83_answered_partial w own evidence endorsements now : gmtime_ok w -> s_gmtime w now <> None ->
  (forall cs tcb doc, verified w evidence endorsements now cs -> says cs "unique_id" own -> says cs "sgx_tcb_info" tcb ->
     w_json (s_world w) tcb = Some doc -> exists m, doc = JObj m) ->
  (forall cs custom l, verified w evidence endorsements now cs -> says cs "unique_id" own -> says cs "custom_claims_buffer" custom ->
     s_unpack w custom = Some l -> l <> []) ->
  exists r, sgx_attest w (Some own) evidence endorsements now = Ret r.
Proof. exact (attest_ends w own evidence endorsements now). Qed.
(* C83, part: what accepted evidence has under other names than these three claims, or after
   its key, makes no difference; the evaluation number has no more than 31 bits *)
Theorem C83_form_partial w own evidence endorsements now out : gmtime_ok w -> sgx_attest w (Some own) evidence endorsements now = Ret (Ok out) ->
  exists cs tcb n, verified w evidence endorsements now cs /\ says cs "sgx_tcb_info" tcb /\ tcb_says (s_world w) tcb n /\ blen (ad_key out) = 32 /\
    (n < 2 ^ 31)%Z.
Proof.
  intros G H. apply attest_spec in H as (key & n & (cs & tcb & cu & V & _ & T & Ts & _ & K) & ->); [|assumption].
  exists cs, tcb, n. split; [assumption|]. split; [assumption|]. split; [assumption|]. destruct K as (l & _ & L). split; [exact L|].
  destruct Ts as (_ & _ & _ & _ & _ & R). lia.
Qed.

(* --- a small world --- *)
(* evidence is [m; n] ++ custom: from MRENCLAVE [m], with a TCB info [n] and these custom
   claims, which start with how many they are; it expires in 2030 *)
Definition toy_tcb (n : Z) : json := JObj [(ascii "signature", JStr [1]); (ascii "tcbInfo", JObj [(ascii "id", JStr [2]); (ascii "tcbEvaluationDataNumber", JNum n)])].
Definition toy_json (s : bytes) : option json :=
  match s with [200] => Some (toy_tcb (-1)) | [201] => Some (JArr []) | [n] => Some (toy_tcb (Z.of_N n)) | _ => None end.
Definition toy_verify (e n : bytes) (d : option date) : option claims :=
  match e with
  | m :: t :: custom =>
      if (match d with Some d => d_year d <? 2030 | None => true end) then
        Some [(ascii "security_version", [1]); (ascii "unique_id", [m]); (ascii "custom_claims_buffer", custom); (ascii "sgx_tcb_info", [t])]
      else None
  | _ => None
  end.
Definition toy_sgx (m t : N) : sgx_world := {|
  s_world := {|
    w_cert := N; w_d2i := fun _ => None; w_chain := fun _ _ _ _ => false; w_pubkey := fun _ => None;
    w_sha256 := fun s => s; w_sha384 := fun s => s; w_rsa := fun _ _ _ _ => false; w_ecdsa := fun _ _ _ _ => false;
    w_json := toy_json; w_data := fun s => Some (AData s []); w_amd_roots := [] |};
  s_verify := toy_verify;
  s_pack := fun cs => match cs with [(_, k); _; _] => Some (1 :: k) | _ => None end;
  s_unpack := fun s => match s with 0 :: _ => Some [] | 1 :: k => Some [(ascii "pk", k); (ascii "config", []); (ascii "minimum_limits", [])] | _ => None end;
  s_get := fun c => Some (m :: t :: c, []);
  s_serialize := fun d => o_key d;
  s_gmtime := fun now => if (now <? 0)%Z then None else if (now <? 2 ^ 50)%Z then Some (Tm (70 + now / 31556952) 0 1 0 0 0) else None |}.
Lemma toy_gmtime m t : gmtime_ok (toy_sgx m t).
Proof.
  intros now x H. unfold toy_sgx in H. cbn [s_gmtime] in H. destruct (Z.ltb_spec now 0); [discriminate|]. destruct (Z.ltb_spec now (2 ^ 50)); [|discriminate].
  set (q := (now / 31556952)%Z) in H. assert (E : x = Tm (70 + q) 0 1 0 0 0) by congruence. subst x. unfold tm_ok. cbn [tm_year tm_mon tm_mday tm_hour tm_min tm_sec].
  pose proof (Z.div_pos now 31556952 ltac:(lia) ltac:(lia)). pose proof (Z.div_lt_upper_bound now 31556952 (2 ^ 26) ltac:(lia) ltac:(lia)).
  fold q in H2, H3. clearbody q. lia.
Qed.

Example x_start : sgx_start (toy_sgx 7 16) false = Ret (Some [7]).
Proof. reflexivity. Qed.
Definition toy_own : own_data := Own (repeat 42 32) [1] [2].
(* evidence of an enclave of the same build, of another one, and too late *)
Example x_attest :
  sgx_evidence (toy_sgx 7 17) false toy_own = Ok (7 :: 17 :: 1 :: repeat 42 32, []) /\
  sgx_attest (toy_sgx 7 16) (Some [7]) (7 :: 17 :: 1 :: repeat 42 32) [] 1700000000 =
    Ret (Ok (AData (repeat 42 32) [(ascii "sgx_tcb_evaluation_data_number", [0; 0; 0; 0; 0; 0; 0; 17])])) /\
  sgx_attest (toy_sgx 7 16) (Some [7]) (8 :: 17 :: 1 :: repeat 42 32) [] 1700000000 = Ret (Err SGX_WrongMRENCLAVE) /\
  sgx_attest (toy_sgx 7 16) (Some [7]) (7 :: 17 :: 1 :: repeat 42 32) [] 1900000000 = Ret (Err SGX_AttestationFailure) /\
  sgx_attest (toy_sgx 7 16) (Some [7]) (7 :: 17 :: 1 :: repeat 42 31) [] 1700000000 = Ret (Err SGX_PubkeyInvalidSize).
Proof. vm_compute. auto. Qed.
Example x_good : good_sgx (toy_sgx 7 16) [7] (7 :: 17 :: 1 :: repeat 42 32) [] 1700000000 (repeat 42 32) 17.
Proof.
  destruct (C82_accepted_exactly (toy_sgx 7 16) [7] (7 :: 17 :: 1 :: repeat 42 32) [] 1700000000 (toy_gmtime _ _)) as [H _].
  destruct (H _ (proj1 (proj2 x_attest))) as (key & n & G & K & V). cbn [ad_key] in K. subst key.
  enough (n = 17%Z) by now subst. destruct G as (cs & tcb & cu & (t & d & T & S & Ve) & _ & Ti & (doc & info & J & M & N & _) & _).
  change (s_verify (toy_sgx 7 16)) with toy_verify in Ve. unfold toy_verify in Ve. destruct (d_year d <? 2030); [|discriminate Ve]. injection Ve as <-.
  apply find_claim_spec in Ti. vm_compute in Ti. injection Ti as <-. vm_compute in J. injection J as <-. apply find_first in M. vm_compute in M. injection M as <-.
  apply find_first in N. vm_compute in N. now injection N as <-.
Qed.
Example x_vouched : vouched (toy_sgx 7 16) (toy_sgx 7 17) 1700000000 [7] [17] /\ tcb_says (s_world (toy_sgx 7 16)) [17] 17.
Proof.
  split.
  - intros c e n [= <- <-].
    assert (T : s_gmtime (toy_sgx 7 16) 1700000000 = Some (Tm (70 + 1700000000 / 31556952) 0 1 0 0 0)) by reflexivity.
    eexists. split; [exists (Tm (70 + 1700000000 / 31556952) 0 1 0 0 0), (Date 2023 1 1 0 0 0); split; [exact T|]; split; [vm_compute; auto 10|reflexivity]|].
    repeat split; apply find_claim_spec; reflexivity.
  - eexists _, _. split; [reflexivity|]. split; [apply find_first; reflexivity|]. split; [apply find_first; reflexivity|lia].
Qed.
Example x_simulated : sgx_evidence (toy_sgx 7 16) true toy_own = Ok (ascii "UNATTESTED EVIDENCE:" ++ repeat 42 32, []) /\
  sgx_attest (toy_sgx 7 16) None (ascii "UNATTESTED EVIDENCE:" ++ repeat 42 32) [] 0 = Ret (Ok (AData (repeat 42 32) [])) /\
  sgx_attest (toy_sgx 7 16) (Some [7]) (ascii "UNATTESTED EVIDENCE:" ++ repeat 42 32) [] 0 = Ret (Err SGX_WrongMRENCLAVE).
Proof. vm_compute. auto. Qed.
Example x_answered : exists r, sgx_attest (toy_sgx 7 16) (Some [7]) (7 :: 17 :: 1 :: repeat 42 32) [] 1700000000 = Ret r.
Proof.
  apply C83_answered_partial; [apply toy_gmtime|discriminate| |];
    intros cs v x (t & d & T & S & V) _ U J; change (s_verify (toy_sgx 7 16)) with toy_verify in V; unfold toy_verify in V;
    destruct (d_year d <? 2030); try discriminate V; injection V as <-; apply find_claim_spec in U; vm_compute in U; injection U as <-; vm_compute in J; injection J as <-.
  - now eexists.
  - discriminate.
Qed.

(* C83, refuted: evidence that Open Enclave has verified stops the verifier if it has no
   custom claims, if its TCB info is no object, or at a time beyond the calendar, which the
   host may set; and an evaluation number below 0 counts as one above every limit *)
Theorem C83_form_refuted :
  (exists w own evidence now cs, gmtime_ok w /\ verified w evidence [] now cs /\ says cs "unique_id" own /\ sgx_attest w (Some own) evidence [] now = Crash /\
     exists custom, says cs "custom_claims_buffer" custom /\ s_unpack w custom = Some []) /\
  (exists w own evidence now cs, gmtime_ok w /\ verified w evidence [] now cs /\ says cs "unique_id" own /\ sgx_attest w (Some own) evidence [] now = Crash /\
     exists tcb, says cs "sgx_tcb_info" tcb /\ w_json (s_world w) tcb = Some (JArr [])) /\
  (exists w own evidence key n, gmtime_ok w /\ good_sgx w own evidence [] 1700000000 key n /\ sgx_attest w (Some own) evidence [] (2 ^ 60) = Crash) /\
  (exists w own evidence now out n, gmtime_ok w /\ good_sgx w own evidence [] now (ad_key out) n /\ (n < 0)%Z /\ sgx_attest w (Some own) evidence [] now = Ret (Ok out) /\
     check_values [(ascii "sgx_tcb_evaluation_data_number", min_u64 (2 ^ 64 - 1))] (ad_values out) = Min_OK).
Proof.
  assert (V : forall e cs, toy_verify e [] (Some (Date 2023 1 1 0 0 0)) = Some cs -> verified (toy_sgx 7 16) e [] 1700000000 cs).
  { intros e cs H. exists (Tm (70 + 1700000000 / 31556952) 0 1 0 0 0), (Date 2023 1 1 0 0 0). split; [reflexivity|]. split; [vm_compute; auto 10|exact H]. }
  split; [|split; [|split]].
  - exists (toy_sgx 7 16), [7], [7; 17; 0], 1700000000%Z. eexists. split; [apply toy_gmtime|]. split; [apply V; reflexivity|].
    split; [apply find_claim_spec; reflexivity|]. split; [vm_compute; reflexivity|]. exists [0]. split; [apply find_claim_spec; reflexivity|reflexivity].
  - exists (toy_sgx 7 16), [7], (7 :: 201 :: 1 :: repeat 42 32), 1700000000%Z. eexists. split; [apply toy_gmtime|]. split; [apply V; reflexivity|].
    split; [apply find_claim_spec; reflexivity|]. split; [vm_compute; reflexivity|]. exists [201]. split; [apply find_claim_spec; reflexivity|reflexivity].
  - exists (toy_sgx 7 16), [7], (7 :: 17 :: 1 :: repeat 42 32), (repeat 42 32), 17%Z. split; [apply toy_gmtime|]. split; [exact x_good|reflexivity].
  - exists (toy_sgx 7 16), [7], (7 :: 200 :: 1 :: repeat 42 32), 1700000000%Z. eexists. exists (-1)%Z. split; [apply toy_gmtime|].
    split; [|split; [reflexivity|split; [vm_compute; reflexivity|vm_compute; reflexivity]]].
    eexists. exists [200], (1 :: repeat 42 32). split; [apply V; reflexivity|]. split; [apply find_claim_spec; reflexivity|]. split; [apply find_claim_spec; reflexivity|].
    split; [|split; [apply find_claim_spec; reflexivity|eexists; split; reflexivity]].
    eexists _, _. split; [reflexivity|]. split; [apply find_first; reflexivity|]. split; [apply find_first; reflexivity|lia].
Qed.

Print Assumptions C82_accepted_exactly.
Print Assumptions C82_own_identity.
Print Assumptions C82_other_enclave_refused.
Print Assumptions C82_same_build_accepted.
Print Assumptions C82_minimum_holds.
Print Assumptions C82_simulated.
Print Assumptions C83_answered_partial.
Print Assumptions C83_form_partial.
Print Assumptions C83_form_refuted.
