(* C62: the certificates a machine hands over.  C64: what guests are refused. *)
From Verif Require Import Snp SnpSpec SnpProofs Tpm2SnpSpec.

(* C62: however the table is filled, a certificate that is taken is one that the table
   names and that lies in the buffer, the last of its kind; the table is refused if it has
   no end or a certificate does not lie in the buffer.  The buffer is left only for an
   entry whose offset and length together do not fit 32 bits. *)
Theorem C62_table_read_exactly_partial s e0 : bytes_ok s = true -> blen s < 2 ^ 32 - 24 ->
  match certs_to_endorsements s e0 with
  | Ret (Ok e) => exists t, table s t /\ Forall (fits s) t /\
      last_of s t UUID_VCEK (se_vcek e0) (se_vcek e) /\ last_of s t UUID_ASK (se_ask e0) (se_ask e) /\
      last_of s t UUID_ARK (se_ark e0) (se_ark e) /\ last_of s t UUID_VLEK (se_vlek e0) (se_vlek e) /\
      last_of s t UUID_CRL (se_crl e0) (se_crl e)
  | Ret (Err _) => forall t, table s t -> ~ Forall (fits s) t
  | Crash => exists t x rest, Forall entry_ok (t ++ [x]) /\ Forall (fits s) t /\ s = concat (map entry_bytes (t ++ [x])) ++ rest /\
      2 ^ 32 <= en_off x + en_len x
  end.
Proof.
  intros B Z. pose proof (table_spec s e0 B Z) as H. destruct (certs_to_endorsements s e0) as [[e|]|]; try exact H.
  destruct H as (t & T & F & ->). exists t. split; [assumption|]. split; [assumption|].
  split; [exact (run_last s _ se_vcek set_vcek t e0)|]. split; [exact (run_last s _ se_ask set_ask t e0)|].
  split; [exact (run_last s _ se_ark set_ark t e0)|]. split; [exact (run_last s _ se_vlek set_vlek t e0)|].
  exact (run_last s _ se_crl set_crl t e0).
Qed.
(* C62: a table whose certificates all lie in the buffer is read *)
Theorem C62_good_table_read s e0 t : bytes_ok s = true -> blen s < 2 ^ 32 - 24 -> table s t -> Forall (fits s) t ->
  exists e, certs_to_endorsements s e0 = Ret (Ok e) /\ last_of s t UUID_VCEK (se_vcek e0) (se_vcek e) /\ last_of s t UUID_ASK (se_ask e0) (se_ask e).
Proof.
  intros B Z T F. pose proof (table_spec s e0 B Z) as H. destruct (certs_to_endorsements s e0) as [[e|]|].
  - destruct H as (t' & T' & F' & ->). eexists. split; [reflexivity|].
    assert (t' = t) as ->.
    { destruct T as [O [r R]], T' as [O' [r' R']].
      destruct (table_prefix t t' (repeat 0 24 ++ r) r' O O' ltac:(congruence)) as [t3 E3].
      destruct (table_prefix t' t (repeat 0 24 ++ r') r O' O ltac:(congruence)) as [t4 E4]. subst t'.
      rewrite <- app_assoc in E4. rewrite <- (app_nil_r t) in E4 at 1. apply app_inv_head in E4. symmetry in E4. apply app_eq_nil in E4 as [-> _].
      apply app_nil_r. }
    split; [exact (run_last s _ se_vcek set_vcek t e0)|exact (run_last s _ se_ask set_ask t e0)].
  - exfalso. now apply (H t T).
  - exfalso. destruct H as (t' & x & r & O' & F' & E & W). destruct T as [O [r0 R]].
    destruct (table_prefix (t' ++ [x]) t r r0 O' O ltac:(congruence)) as [t3 ->].
    assert (X : fits s x). { rewrite Forall_forall in F. apply F. rewrite !in_app_iff. left. right. now left. }
    unfold fits in X. assert (2 ^ 32 - 24 < 2 ^ 32) by reflexivity.
    exact (N.lt_irrefl _ (N.le_lt_trans _ _ _ W (N.le_lt_trans _ _ _ X (N.lt_trans _ _ _ Z H)))).
Qed.
(* C62, refuted: an entry with offset 24 and length 2^32 - 24 passes the checks, and 4 GiB
   are read from a buffer of 48 bytes *)
Theorem C62_in_bounds_refuted :
  exists s, bytes_ok s = true /\ blen s = 48 /\ certs_to_endorsements s (SevEnd [] [] [] [] []) = Crash.
Proof.
  exists (entry_bytes (Entry UUID_VCEK 24 (2 ^ 32 - 24)) ++ repeat 0 24). vm_compute. auto.
Qed.

(* C64: DataFromVerifiedAttestation refuses guests that may be debugged or migrated, and
   reports of another version, algorithm, key, software or host data. *)
Theorem C64_debug_refused_partial w local evidence vcek ask now d :
  sev_data w local evidence vcek ask now = Ret (Ok d) ->
  N.testbit (le_num (slice evidence 8 8)) 18 = false /\ N.testbit (le_num (slice evidence 8 8)) 19 = false /\
  le_num (slice evidence 0 4) = 2 /\ le_num (slice evidence 52 4) = 1 /\ slice evidence 144 48 = slice local 144 48 /\
  slice evidence 192 32 = slice local 192 32 /\ ad_key d = slice evidence 80 32.
Proof.
  unfold sev_data. destruct (report_verified w evidence vcek ask now) as [[r|]|] eqn:R; try discriminate. cbn [bind].
  assert (Er : r = slice evidence 0 1184 /\ 1184 <= blen evidence).
  { revert R. unfold report_verified, report_unverified. destruct (blen evidence <? REPORT_SIZE) eqn:L; [discriminate|]. apply N.ltb_ge in L.
    destruct (w_d2i w vcek) as [[? ?]|]; [|discriminate]. destruct (w_d2i w ask) as [[? ?]|]; [|discriminate]. destruct (w_pubkey w _) as [[]|]; try discriminate;
    destruct (w_chain w _ _ _ _); try discriminate. cbn [negb]. destruct (w_ecdsa w _ _ _ _); [|discriminate]. intros [= <-]. now split. }
  destruct Er as [-> L].
  assert (Sl : forall off n, (off + n <= 1184)%nat -> slice (slice evidence 0 1184) off n = slice evidence off n).
  { intros off n H. unfold slice. cbn [skipn]. rewrite skipn_firstn_comm, firstn_firstn. f_equal.
    apply Nat.min_l. apply Nat.le_add_le_sub_l. exact H. }
  destruct (allow_remote local _) eqn:A; [discriminate|]. intros Ed. assert (Ek : ad_key d = firstn 32 (rep_report_data (slice evidence 0 1184))) by (assert (Inj : forall x y : adata, @Ret (res sev_error adata) (Ok x) = Ret (Ok y) -> x = y) by congruence; apply Inj in Ed; now rewrite <- Ed).
  rewrite Ek. clear Ed Ek.
  unfold allow_remote in A. destruct (validate_report _) eqn:V; [discriminate|].
  destruct (beq_spec (rep_measurement local) (rep_measurement (slice evidence 0 1184))) as [M|]; [|discriminate].
  destruct (beq_spec (rep_host_data local) (rep_host_data (slice evidence 0 1184))) as [H|]; [|discriminate].
  unfold validate_report in V.
  destruct (N.land (rep_policy (slice evidence 0 1184)) POLICY_MIGRATE_MA_MASK =? 0) eqn:P1; [|discriminate].
  destruct (N.land (rep_policy (slice evidence 0 1184)) POLICY_DEBUG_MASK =? 0) eqn:P2; [|discriminate]. cbn [negb] in V.
  destruct (rep_version (slice evidence 0 1184) =? 2) eqn:P3; [|discriminate].
  destruct (rep_sig_algo (slice evidence 0 1184) =? SIG_ALGO_ECDSA_P384_SHA384) eqn:P4; [|discriminate].
  apply N.eqb_eq in P1, P2, P3, P4.
  assert (G : forall p k, N.land p (2 ^ k) = 0 -> N.testbit p k = false).
  { intros p k E. apply (f_equal (fun x => N.testbit x k)) in E. rewrite N.land_spec, N.pow2_bits_true, N.bits_0, andb_true_r in E. exact E. }
  unfold rep_policy, rep_version, rep_sig_algo, rep_measurement, rep_host_data, field in *. fold (slice (slice evidence 0 1184)) in *.
  assert (X : forall off n, firstn n (skipn off (slice evidence 0 1184)) = slice (slice evidence 0 1184) off n) by reflexivity.
  rewrite !X in *. rewrite !Sl in * by (apply Nat.leb_le; vm_compute; reflexivity).
  split; [apply G; exact P1|]. split; [apply G; exact P2|]. split; [exact P3|]. split; [exact P4|]. split; [symmetry; exact M|]. split; [symmetry; exact H|].
  unfold rep_report_data, field. rewrite X, Sl by (apply Nat.leb_le; vm_compute; reflexivity). unfold slice. now rewrite firstn_firstn.
Qed.

(* a table with two certificates *)
Definition x_table : bytes := entry_bytes (Entry UUID_VCEK 72 3) ++ entry_bytes (Entry UUID_ASK 75 2) ++ repeat 0 24 ++ [1; 2; 3; 4; 5].
Example x_table_ok : table x_table [Entry UUID_VCEK 72 3; Entry UUID_ASK 75 2] /\ Forall (fits x_table) [Entry UUID_VCEK 72 3; Entry UUID_ASK 75 2].
Proof.
  split.
  - split; [|exists [1; 2; 3; 4; 5]; reflexivity]. repeat constructor; discriminate.
  - repeat constructor; intros H; discriminate H.
Qed.
Example x_table_read : certs_to_endorsements x_table (SevEnd [] [] [] [] []) = Ret (Ok (SevEnd [1; 2; 3] [4; 5] [] [] []))
  /\ certs_to_endorsements (firstn 70 x_table) (SevEnd [] [] [] [] []) = Ret (Err Sev_CertTooLarge)
  /\ certs_to_endorsements (repeat 1 20) (SevEnd [] [] [] [] []) = Ret (Err Sev_EntryTooLarge).
Proof. vm_compute. auto. Qed.

Print Assumptions C62_table_read_exactly_partial.
Print Assumptions C62_good_table_read.
Print Assumptions C62_in_bounds_refuted.
Print Assumptions C64_debug_refused_partial.
