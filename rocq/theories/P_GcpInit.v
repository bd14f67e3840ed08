(* C106: what an enclave on GCP shows of itself is made for the data at hand, and
   it has verified itself when it has started. *)
From Verif Require Import Base GcpInit.
Open Scope N_scope.

(* A machine whose TPM gives no empty parts, and whose hash has 32 bytes. *)
Definition full (m : machine) : Prop :=
  (forall t n q s p c, tpm m t n = Some (q, s, p, c) -> q <> [] /\ s <> [] /\ p <> [] /\ c <> []) /\
  (forall x, length (sha256 m x) = 32%nat).

Lemma merge_field_nil a : merge_field a [] = a. Proof. reflexivity. Qed.
Lemma merge_field_new a b : b <> [] -> merge_field a b = b. Proof. destruct b; [contradiction|reflexivity]. Qed.
Lemma merge_nil b : merge_field [] b = b. Proof. destruct b; reflexivity. Qed.

(* Evidence for data: a quote taken at that moment over the hash of that data,
   which goes with it; report and runtime data are those of the start, nothing of
   the quote of the start is left. *)
Theorem C106_evidence_is_fresh m base t data e :
  full m ->
  (evidence_for m base t data = Some e <->
   exists q s p c, tpm m t (sha256 m data) = Some (q, s, p, c) /\
     e = Evidence q s p c (snp base) (runtime base) data).
Proof.
  intros [F L]. unfold evidence_for, run_tool. rewrite L. cbn [Nat.eqb negb].
  destruct (tpm m t (sha256 m data)) as [[[[q s] p] c]|] eqn:T.
  - destruct (F _ _ _ _ _ _ T) as (Q & S & P & C). unfold merge. cbn [msg sig pcrs akcert snp runtime adata no_evidence].
    rewrite !merge_nil, !merge_field_nil, !merge_field_new by assumption. split.
    + intros H. injection H as <-. exists q, s, p, c. split; reflexivity.
    + intros (q' & s' & p' & c' & H & ->). injection H as <- <- <- <-. reflexivity.
  - split; [discriminate|]. intros (q & s & p & c & H & _). discriminate.
Qed.
(* Without that, a part that the TPM left empty is filled from the start. *)
Example C106_stale_if_empty : exists m base t data e,
  evidence_for m base t data = Some e /\ msg e = msg base /\ msg base <> [] /\ tpm m t (sha256 m data) <> None.
Proof.
  exists {| tpm := fun _ _ => Some ([], [1], [1], [1]); issuer := fun _ => None; runtime_of := Some; sev := fun _ _ => None;
            pcrs_of := Some; sha256 := fun _ => repeat 0 32; verify := fun _ _ _ _ => true |}.
  exists (Evidence [7] [7] [7] [7] [7] [7] []), 0, [5]. eexists. split; [reflexivity|]. split; [reflexivity|]. split; discriminate.
Qed.

(* It starts exactly if each step works and the evidence it would give then, for
   no data, verifies against its own certificates and PCRs. *)
Theorem C106_started_means_verified_partial m nonce t t1 base en local :
  full m -> length nonce = 32%nat ->
  (init m nonce t t1 = Ret (base, en, local) <->
   exists q s p c q' s' p' c',
     tpm m t nonce = Some (q, s, p, c) /\ issuer m t = Some (intermediate en) /\
     runtime_of m c = Some (runtime base) /\
     sev m t (sha256 m (runtime base)) = Some (snp base, vcek en, ask en) /\
     pcrs_of m p = Some local /\ base = Evidence q s p c (snp base) (runtime base) [] /\
     tpm m t1 (sha256 m []) = Some (q', s', p', c') /\
     verify m t1 (Evidence q' s' p' c' (snp base) (runtime base) []) en local = true).
Proof.
  intros FM LN. unfold init, run_tool at 1. rewrite LN. cbn [Nat.eqb negb].
  destruct (tpm m t nonce) as [[[[q s] p] c]|] eqn:T.
  2: { split; [discriminate|]. intros (q & s & p & c & q' & s' & p' & c' & H & _). discriminate. }
  destruct (issuer m t) as [b|] eqn:I.
  2: { split; [discriminate|]. intros (? & ? & ? & ? & ? & ? & ? & ? & _ & H & _). discriminate. }
  cbn [akcert msg sig pcrs adata].
  split.
  - destruct (runtime_of m c) as [rt|] eqn:R; [|discriminate].
    destruct (sev m t (sha256 m rt)) as [[[rep v] a]|] eqn:S; [|discriminate].
    destruct (pcrs_of m p) as [lo|] eqn:P; [|discriminate].
    destruct (evidence_for m _ t1 []) as [e|] eqn:E; [|discriminate].
    destruct (verify m t1 e _ lo) eqn:V; [|discriminate]. intros H. injection H as <- <- <-.
    apply (C106_evidence_is_fresh m _ t1 [] e FM) in E as (q' & s' & p' & c' & T' & ->).
    cbn [snp runtime intermediate vcek ask] in *. exists q, s, p, c, q', s', p', c'.
    split; [reflexivity|]. split; [reflexivity|]. split; [exact R|]. split; [exact S|]. split; [exact P|].
    split; [reflexivity|]. split; [exact T'|exact V].
  - intros (q0 & s0 & p0 & c0 & q' & s' & p' & c' & H & I' & R & S & P & B & T' & V). injection H as <- <- <- <-.
    injection I' as ->. rewrite R, S, P.
    destruct en as [im vk as_]. cbn [intermediate vcek ask] in *.
    assert (E : evidence_for m (Evidence q s p c (snp base) (runtime base) []) t1 [] = Some (Evidence q' s' p' c' (snp base) (runtime base) [])).
    { apply C106_evidence_is_fresh; [exact FM|]. exists q', s', p', c'. split; [exact T'|reflexivity]. }
    rewrite E, V. rewrite <- B. reflexivity.
Qed.
(* So an error page of the certificate's server stops it, once and for all. *)
Theorem C106_error_page_stops_it m nonce t t1 page :
  issuer m t = Some page ->
  (forall e en local, intermediate en = page -> verify m t1 e en local = false) ->
  init m nonce t t1 = Crash.
Proof.
  intros I V. unfold init. destruct (run_tool m t nonce true) as [[ev inter]|] eqn:R; [|reflexivity].
  assert (inter = page).
  { unfold run_tool in R. destruct (negb _); [discriminate|]. destruct (tpm m t nonce) as [[[[q s] p] c]|]; [|discriminate].
    rewrite I in R. congruence. }
  subst inter. destruct (runtime_of m (akcert ev)) as [rt|]; [|reflexivity].
  destruct (sev m t (sha256 m rt)) as [[[rep v] a]|]; [|reflexivity].
  destruct (pcrs_of m (pcrs ev)) as [lo|]; [|reflexivity].
  destruct (evidence_for m _ t1 []) as [e|]; [|reflexivity]. rewrite V; reflexivity.
Qed.

(* A report is one that the firmware made without any error over the hash that was
   given, with the certificates that came with it. *)
Theorem C106_report_is_the_firmwares_partial o1 o2 ioctl endorse nonce r v a :
  snp_report o1 o2 ioctl endorse nonce = Ret (Some (r, v, a)) <->
  exists fd x, (0 < fd)%Z /\ (fd = o1 \/ (o1 <= 0)%Z /\ fd = o2) /\ x = ioctl fd (nonce ++ repeat 0 (64 - length nonce)) /\
    (0 <= ret x)%Z /\ fw_error x = 0 /\ vmm_error x = 0 /\ status x = 0 /\ report_size x = 1184 /\
    report x = r /\ endorse (certs x) = Some (v, a).
Proof.
  unfold snp_report. split.
  - set (fd := if (0 <? o1)%Z then o1 else o2). destruct (Z.ltb_spec 0 fd) as [P|P]; cbn [negb]; [|discriminate].
    set (x := ioctl fd _). destruct (Z.ltb_spec (ret x) 0); [discriminate|].
    destruct (fw_error x =? 0) eqn:E1; [|discriminate]. destruct (vmm_error x =? 0) eqn:E2; [|discriminate].
    destruct (status x =? 0) eqn:E3; [|discriminate]. cbn [negb orb]. destruct (report_size x =? 1184) eqn:E4; [|discriminate]. cbn [negb].
    destruct (endorse (certs x)) as [[v' a']|] eqn:E5; [|discriminate]. intros H'. injection H' as <- <- <-.
    apply N.eqb_eq in E1, E2, E3, E4. exists fd, x. split; [exact P|]. split.
    { subst fd. destruct (Z.ltb_spec 0 o1); [left; reflexivity|right; split; [assumption|reflexivity]]. }
    repeat (split; [first [reflexivity|assumption|lia]|]). exact E5.
  - intros (fd & x & P & O & -> & R & E1 & E2 & E3 & E4 & <- & E5).
    replace (if (0 <? o1)%Z then o1 else o2) with fd.
    2: { destruct (Z.ltb_spec 0 o1); destruct O as [O|[O1 O2]]; lia. }
    destruct (Z.ltb_spec 0 fd); [|lia]. cbn [negb]. destruct (Z.ltb_spec (ret (ioctl fd (nonce ++ repeat 0 (64 - length nonce)))) 0); [lia|].
    rewrite E1, E2, E3, E4. cbn [N.eqb Pos.eqb negb orb]. rewrite E5. reflexivity.
Qed.
(* Full: a device that opens is used.  One that opens as descriptor 0, as it may if
   there is no standard input, is taken for one that does not open. *)
Theorem C106_device_zero_refuted o2 ioctl endorse nonce :
  (o2 <= 0)%Z -> snp_report 0 o2 ioctl endorse nonce = Crash.
Proof. intros H. unfold snp_report. cbn [Z.ltb Z.compare]. destruct (Z.ltb_spec 0 o2); [lia|reflexivity]. Qed.
Example C106_report_meets :
  snp_report (-1) 3 (fun fd d => IoctlResult 0 0 0 0 1184 (firstn 2 d) [9]) (fun c => Some (c, [8])) (repeat 7 32) = Ret (Some ([7; 7], [9], [8])) /\
  snp_report 3 4 (fun fd d => IoctlResult 0 0 1 0 1184 (firstn 2 d) [9]) (fun c => Some (c, [8])) (repeat 7 32) = Ret None.
Proof. split; reflexivity. Qed.

Definition ex : machine := {| tpm := fun t n => Some (t :: firstn 2 n, [3], [4], [5]); issuer := fun _ => Some [6];
  runtime_of := fun c => Some (8 :: c); sev := fun _ h => Some (firstn 1 h, [9], [10]); pcrs_of := Some;
  sha256 := fun x => firstn 32 (x ++ repeat 7 32);
  verify := fun t e en _ => if list_eq_dec N.eq_dec (msg e) [t; 7; 7] then if list_eq_dec N.eq_dec (intermediate en) [6] then true else false else false |}.
Example C106_full : full ex.
Proof.
  split.
  - intros t n q s p c H. cbn in H. injection H as <- <- <- <-. repeat split; discriminate.
  - intros x. cbn [ex sha256]. rewrite firstn_length, app_length, repeat_length. lia.
Qed.
Example C106_meets : init ex (repeat 0 32) 1 1 = Ret (Evidence [1; 0; 0] [3] [4] [5] [8] [8; 5] [], Endorsements [6] [9] [10], [4]) /\
  evidence_for ex (Evidence [1; 0; 0] [3] [4] [5] [8] [8; 5] []) 2 [1; 2; 3] = Some (Evidence [2; 1; 2] [3] [4] [5] [8] [8; 5] [1; 2; 3]).
Proof. vm_compute. split; reflexivity. Qed.

(* Full: a failure that passes does not stop it.  The server of certificates has an
   error page once, a moment later all is well; the enclave has stopped. *)
Theorem C106_passing_failure_stops_it_refuted : exists m nonce t page,
  full m /\ length nonce = 32%nat /\ issuer m t = Some page /\
  (forall t', t < t' -> exists b en l, init m nonce t' t' = Ret (b, en, l)) /\
  (forall t1, init m nonce t t1 = Crash).
Proof.
  exists {| tpm := tpm ex; issuer := fun t => if t =? 0 then Some [60] else Some [6]; runtime_of := runtime_of ex; sev := sev ex;
            pcrs_of := Some; sha256 := sha256 ex; verify := verify ex |}, (repeat 0 32), 0, [60].
  split; [exact C106_full|]. split; [reflexivity|]. split; [reflexivity|]. split.
  - intros t' L. unfold init, run_tool. cbn [issuer]. destruct (t' =? 0) eqn:E; [apply N.eqb_eq in E; lia|].
    do 3 eexists. cbv -[N.eqb N.eq_dec list_eq_dec]. destruct (list_eq_dec N.eq_dec [t'; 7; 7] [t'; 7; 7]) as [_|X]; [|contradiction X; reflexivity].
    destruct (list_eq_dec N.eq_dec [6] [6]) as [_|X]; [reflexivity|contradiction X; reflexivity].
  - intros t1. apply (C106_error_page_stops_it _ _ _ _ [60]); [reflexivity|]. intros e en local H. cbn [verify ex].
    destruct (list_eq_dec N.eq_dec (msg e) _); [|reflexivity]. rewrite H. destruct (list_eq_dec N.eq_dec [60] [6]); [discriminate|reflexivity].
Qed.

Print Assumptions C106_passing_failure_stops_it_refuted.
Print Assumptions C106_report_is_the_firmwares_partial.
Print Assumptions C106_device_zero_refuted.
Print Assumptions C106_evidence_is_fresh.
Print Assumptions C106_started_means_verified_partial.
Print Assumptions C106_error_page_stops_it.
