From Coq Require Import Strings.String.
From Verif Require Import Tpm2SnpSpec Tpm2SnpProofs UtilProofs Sgx SgxSpec.

Lemma find_claim_spec cs name v : find_claim cs (ascii name) = Some v <-> says cs name v.
Proof.
  unfold says. induction cs as [|[n x] cs IH]; cbn [find_claim].
  - split; [discriminate|]. intros (c1 & c2 & E & _). now destruct c1.
  - destruct (beq_spec n (ascii name)) as [->|N].
    + split.
      * intros [= ->]. exists [], cs. split; [reflexivity|now intros ? []].
      * intros ([|y c1] & c2 & E & F); [now injection E as -> _|]. injection E as <- _. now specialize (F _ (or_introl eq_refl)).
    + rewrite IH. split.
      * intros (c1 & c2 & -> & F). exists ((n, x) :: c1), c2. split; [reflexivity|]. now intros y [<-|I]; [|apply F].
      * intros ([|y c1] & c2 & E & F); [now injection E as -> _|]. injection E as <- ->. exists c1, c2. split; [reflexivity|]. intros y I. apply F. now right.
Qed.
Lemma says_fun cs name v v' : says cs name v -> says cs name v' -> v = v'.
Proof. rewrite <- !find_claim_spec. congruence. Qed.

Lemma u32_small z : (0 <= z < 2 ^ 32)%Z -> Z.of_N (u32 z) = z.
Proof. intros H. unfold u32. rewrite Z.mod_small by assumption. now rewrite Z2N.id. Qed.
Lemma to_date_ok w now t : s_gmtime w now = Some t -> tm_ok t -> exists d, to_date w now = Ret d /\ same_time t d.
Proof.
  intros G (H1 & H2 & H3 & H4 & H5 & H6). unfold to_date. rewrite G. eexists. split; [reflexivity|].
  unfold same_time. cbn [d_year d_month d_day d_hours d_minutes d_seconds].
  rewrite !N2Z.inj_mod, !N2Z.inj_add, !u32_small by lia. change (Z.of_N (2 ^ 32)) with (2 ^ 32)%Z.
  rewrite !Z.mod_small by lia. repeat split.
Qed.
Lemma same_time_fun t d d' : same_time t d -> same_time t d' -> d = d'.
Proof. destruct d, d'. unfold same_time. cbn. intros (? & ? & ? & ? & ? & ?) (? & ? & ? & ? & ? & ?). f_equal; lia. Qed.

Lemma tcb_number_spec w cs n : tcb_number w cs = Ret (Ok n) <->
  exists tcb z, says cs "sgx_tcb_info" tcb /\ tcb_says (s_world w) tcb z /\ n = Z.to_N (z mod 2 ^ 64).
Proof.
  unfold tcb_number, OE_TCB_INFO. split.
  - destruct (find_claim _ _) as [t|] eqn:F; [|discriminate]. apply find_claim_spec in F.
    destruct (w_json _ _) as [doc|] eqn:J; [|discriminate]. destruct doc as [| | | | |m]; try discriminate. cbn [member bind].
    destruct (find_member (ascii "tcbInfo") m) as [[| | | | |i]|] eqn:M; try discriminate.
    destruct (find_member _ i) as [[| |z| | |]|] eqn:N; try discriminate.
    destruct (Z.leb_spec (- 2 ^ 31) z); [|discriminate]. destruct (Z.ltb_spec z (2 ^ 31)); [|discriminate]. cbn [andb]. intros [= <-].
    exists t, z. split; [assumption|]. split; [|reflexivity]. exists m, i. split; [assumption|]. split; [now apply find_first|]. split; [now apply find_first|lia].
  - intros (t & z & S & (m & i & J & M & N & R) & ->). apply find_claim_spec in S. rewrite S, J. cbn [member bind].
    apply find_first in M, N. rewrite M, N. now rewrite (proj2 (Z.leb_le _ _) (proj1 R)), (proj2 (Z.ltb_lt _ _) (proj2 R)).
Qed.
Lemma read_key_spec w cs k : read_key w cs = Ret (Ok k) <-> exists custom, says cs "custom_claims_buffer" custom /\ names_key w custom k.
Proof.
  unfold read_key, OE_CUSTOM, names_key. split.
  - destruct (find_claim _ _) as [c|] eqn:F; [|discriminate]. apply find_claim_spec in F. destruct (s_unpack w c) as [[|[n v] l]|] eqn:U; try discriminate.
    destruct (beq_spec n CLAIM_PK) as [->|]; [|discriminate]. destruct (N.eqb_spec (blen v) 32); [|discriminate]. intros [= <-].
    exists c. split; [assumption|]. now exists l.
  - intros (c & S & l & U & L). apply find_claim_spec in S. rewrite S, U. unfold CLAIM_PK. rewrite beq_refl, L. reflexivity.
Qed.

Lemma attest_spec w own e n now d : gmtime_ok w ->
  sgx_attest w (Some own) e n now = Ret (Ok d) <->
  exists key z, good_sgx w own e n now key z /\ d = AData key [(ascii "sgx_tcb_evaluation_data_number", be64 (Z.to_N (z mod 2 ^ 64)))].
Proof.
  intros G. unfold sgx_attest. destruct (s_gmtime w now) as [t|] eqn:T.
  2: { unfold to_date at 1. rewrite T. cbn [bind]. split; [discriminate|]. intros (k & z & (cs & tcb & cu & (t & d' & T' & _) & _) & _). congruence. }
  destruct (to_date_ok w now t T (G _ _ T)) as (dt & -> & St). cbn [bind].
  destruct (s_verify w e n (Some dt)) as [cs|] eqn:V.
  2: { split; [discriminate|]. intros (k & z & (cs & tcb & cu & (t' & d' & T' & St' & V') & _) & _). rewrite T in T'. injection T' as <-.
       rewrite (same_time_fun _ _ _ St' St) in V'. congruence. }
  assert (Cs : forall cs', verified w e n now cs' -> cs' = cs).
  { intros cs' (t' & d' & T' & St' & V'). rewrite T in T'. injection T' as <-. rewrite (same_time_fun _ _ _ St' St) in V'. congruence. }
  assert (Vd : verified w e n now cs) by (exists t, dt; auto).
  unfold validate, OE_UNIQUE_ID. destruct (find_claim cs _) as [a|] eqn:F.
  2: { cbn [bind]. split; [discriminate|]. intros (k & z & (cs' & tcb & cu & V' & S & _) & _). rewrite (Cs _ V') in S. apply find_claim_spec in S. congruence. }
  rewrite ct_equals_spec. cbn [bind]. apply find_claim_spec in F. destruct (beq_spec a own) as [->|Ne].
  2: { split; [discriminate|]. intros (k & z & (cs' & tcb & cu & V' & S & _) & _). rewrite (Cs _ V') in S. now pose proof (says_fun _ _ _ _ F S). }
  split.
  - destruct (tcb_number w cs) as [[x|x]|] eqn:Tn; cbn [bind]; try discriminate. apply tcb_number_spec in Tn as (tcb & z & S1 & S2 & ->).
    destruct (read_key w cs) as [[k|k]|] eqn:K; cbn [bind]; try discriminate. apply read_key_spec in K as (cu & S3 & S4).
    intros [= <-]. exists k, z. split; [|reflexivity]. exists cs, tcb, cu. auto 10.
  - intros (k & z & (cs' & tcb & cu & V' & _ & S1 & S2 & S3 & S4) & ->). rewrite (Cs _ V') in *.
    rewrite (proj2 (tcb_number_spec w cs (Z.to_N (z mod 2 ^ 64)))) by (exists tcb, z; auto). cbn [bind].
    rewrite (proj2 (read_key_spec w cs k)) by (exists cu; auto). reflexivity.
Qed.

Lemma attest_ends w own e n now :
  gmtime_ok w -> s_gmtime w now <> None ->
  (forall cs tcb doc, verified w e n now cs -> says cs "unique_id" own -> says cs "sgx_tcb_info" tcb -> w_json (s_world w) tcb = Some doc -> exists m, doc = JObj m) ->
  (forall cs custom l, verified w e n now cs -> says cs "unique_id" own -> says cs "custom_claims_buffer" custom -> s_unpack w custom = Some l -> l <> []) ->
  exists r, sgx_attest w (Some own) e n now = Ret r.
Proof.
  intros G T J C. unfold sgx_attest. destruct (s_gmtime w now) as [t|] eqn:Tm; [|congruence].
  destruct (to_date_ok w now t Tm (G _ _ Tm)) as (dt & -> & St). cbn [bind].
  destruct (s_verify w e n (Some dt)) as [cs|] eqn:V; [|now eexists].
  assert (Vd : verified w e n now cs) by (exists t, dt; auto).
  unfold validate, OE_UNIQUE_ID. destruct (find_claim cs _) as [a|] eqn:F; [|now eexists].
  rewrite ct_equals_spec. cbn [bind]. apply find_claim_spec in F. destruct (beq_spec a own) as [->|Ne]; [|now eexists].
  assert (A : exists r, tcb_number w cs = Ret r).
  { unfold tcb_number, OE_TCB_INFO. destruct (find_claim cs _) as [tcb|] eqn:Ft; [|now eexists]. apply find_claim_spec in Ft.
    destruct (w_json _ _) as [doc|] eqn:Jd; [|now eexists]. destruct (J _ _ _ Vd F Ft Jd) as [m ->]. cbn [member bind].
    destruct (find_member _ m) as [[| | | | |i]|]; try now eexists. destruct (find_member _ i) as [[| |z| | |]|]; try now eexists.
    destruct (_ && _)%bool; now eexists. }
  assert (B : exists r, read_key w cs = Ret r).
  { unfold read_key, OE_CUSTOM. destruct (find_claim cs _) as [cu|] eqn:Fc; [|now eexists]. apply find_claim_spec in Fc.
    destruct (s_unpack w cu) as [[|[nm v] l]|] eqn:U; [|destruct (beq nm CLAIM_PK); [destruct (blen v =? 32)|]; now eexists|now eexists].
    now destruct (C _ _ _ Vd F Fc U). }
  destruct A as [[x|x] ->]; cbn [bind]; [|now eexists]. destruct B as [[y|y] ->]; cbn [bind]; now eexists.
Qed.
