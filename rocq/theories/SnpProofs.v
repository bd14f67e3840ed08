(* Proofs about Snp.v. *)
From Verif Require Import Snp Tpm2Spec Tpm2Proofs SnpSpec.
From Coq Require Import Lia.

(* --- little endian --- *)
Lemma le_length n v : length (little_endian n v) = n.
Proof. revert v. induction n; intros v; cbn; [reflexivity|]. now rewrite IHn. Qed.
Lemma le_num_le n v : v < 256 ^ N.of_nat n -> le_num (little_endian n v) = v.
Proof.
  revert v. induction n as [|n IH]; intros v H; cbn [little_endian le_num].
  - cbn in H. lia.
  - rewrite Nat2N.inj_succ, N.pow_succ_r' in H. rewrite IH by (apply N.div_lt_upper_bound; lia).
    rewrite N.add_comm. symmetry. apply N.div_mod. discriminate.
Qed.
Lemma le_le_num s : bytes_ok s = true -> little_endian (length s) (le_num s) = s.
Proof.
  induction s as [|b s IH]; intros H; [reflexivity|]. cbn [bytes_ok forallb] in H. apply andb_true_iff in H as [Hb Hs].
  apply N.ltb_lt in Hb. cbn [length little_endian le_num].
  replace ((b + 256 * le_num s) mod 256) with b.
  2: { rewrite N.mul_comm, N.mod_add by discriminate. symmetry. now apply N.mod_small. }
  replace ((b + 256 * le_num s) / 256) with (le_num s).
  2: { rewrite N.mul_comm, N.div_add by discriminate. now rewrite N.div_small. }
  now rewrite IH.
Qed.
Lemma le_num_bound s : bytes_ok s = true -> le_num s < 256 ^ N.of_nat (length s).
Proof.
  induction s as [|b s IH]; intros H; [cbn; lia|]. cbn [bytes_ok forallb] in H. apply andb_true_iff in H as [Hb Hs].
  apply N.ltb_lt in Hb. cbn [length le_num]. rewrite Nat2N.inj_succ, N.pow_succ_r'. specialize (IH Hs). lia.
Qed.

(* --- the table --- *)
Definition entry_of (b : bytes) : entry := Entry (field b 0 16) (le_num (field b 16 4)) (le_num (field b 20 4)).
Lemma entry_bytes_length x : length (en_uuid x) = 16%nat -> length (entry_bytes x) = 24%nat.
Proof. intros H. unfold entry_bytes. now rewrite !app_length, !le_length, H. Qed.
Lemma bytes_ok_app' a b : bytes_ok (a ++ b) = (bytes_ok a && bytes_ok b)%bool.
Proof. apply forallb_app. Qed.
Lemma entry_split b : length b = 24%nat -> b = field b 0 16 ++ field b 16 4 ++ field b 20 4 /\
  length (field b 0 16) = 16%nat /\ length (field b 16 4) = 4%nat /\ length (field b 20 4) = 4%nat.
Proof.
  intros H. do 24 (destruct b as [|? b]; [discriminate H|]). destruct b; [|discriminate H]. cbn. auto.
Qed.
Lemma entry_of_bytes x : length (en_uuid x) = 16%nat -> en_off x < 2 ^ 32 -> en_len x < 2 ^ 32 -> entry_of (entry_bytes x) = x.
Proof.
  intros H O L. destruct (entry_split (entry_bytes x) (entry_bytes_length x H)) as (E & L1 & L2 & L3).
  unfold entry_of. unfold entry_bytes in E at 1. apply app_same in E as [E1 E]; [|congruence].
  apply app_same in E as [E2 E3]; [|rewrite le_length; congruence].
  rewrite <- E1, <- E2, <- E3, !le_num_le by assumption. now destruct x.
Qed.
Lemma entry_bytes_of b : length b = 24%nat -> bytes_ok b = true -> b <> repeat 0 24 -> entry_bytes (entry_of b) = b /\ entry_ok (entry_of b).
Proof.
  intros H B N. destruct (entry_split b H) as (E & L1 & L2 & L3).
  assert (B' := B). rewrite E, !bytes_ok_app', !andb_true_iff in B'. destruct B' as (B1 & B2 & B3).
  assert (Q : entry_bytes (entry_of b) = b).
  { unfold entry_bytes, entry_of. cbn [en_uuid en_off en_len].
    pose proof (le_le_num _ B2) as Q2. pose proof (le_le_num _ B3) as Q3. rewrite L2 in Q2. rewrite L3 in Q3. rewrite Q2, Q3. now symmetry. }
  split; [exact Q|]. unfold entry_ok. rewrite Q. unfold entry_of; cbn [en_uuid en_off en_len].
  pose proof (le_num_bound _ B2) as Q2. pose proof (le_num_bound _ B3) as Q3. rewrite L2 in Q2. rewrite L3 in Q3.
  repeat split; assumption.
Qed.

(* the effect of a table *)
Definition run_table (s : bytes) (t : list entry) (e : sev_endorsements) : sev_endorsements :=
  fold_left (fun e x => set_cert (en_uuid x) (cert_of s x) e) t e.

Lemma field_rd s d n : d + n <= blen s -> rd s d n = Ret (field s d n).
Proof. intros H. unfold rd, field. apply N.leb_le in H. now rewrite H. Qed.
Lemma field_app_r a b d n : d = blen a -> field (a ++ b) d n = firstn (N.to_nat n) b.
Proof.
  intros ->. unfold field, blen. rewrite Nat2N.id. f_equal. rewrite skipn_app, skipn_all, Nat.sub_diag. reflexivity.
Qed.
Lemma field_length s d n : d + n <= blen s -> length (field s d n) = N.to_nat n.
Proof. intros H. unfold field, blen in *. rewrite firstn_length, skipn_length. lia. Qed.
Lemma bytes_ok_firstn n s : bytes_ok s = true -> bytes_ok (firstn n s) = true.
Proof. intros H. rewrite <- (firstn_skipn n s), bytes_ok_app', andb_true_iff in H. tauto. Qed.
Lemma bytes_ok_skipn n s : bytes_ok s = true -> bytes_ok (skipn n s) = true.
Proof. intros H. rewrite <- (firstn_skipn n s), bytes_ok_app', andb_true_iff in H. tauto. Qed.
Lemma concat_entries_len t : Forall entry_ok t -> blen (concat (map entry_bytes t)) = 24 * N.of_nat (length t).
Proof.
  induction 1 as [|x t H _ IH]; [reflexivity|]. cbn [map concat length]. unfold blen in *. rewrite app_length, entry_bytes_length by apply H. lia.
Qed.
Lemma run_table_app s t x e : run_table s (t ++ [x]) e = set_cert (en_uuid x) (cert_of s x) (run_table s t e).
Proof. unfold run_table. now rewrite fold_left_app. Qed.

(* tables are unambiguous *)
Lemma table_prefix t1 : forall t2 r1 r2, Forall entry_ok t1 -> Forall entry_ok t2 ->
  concat (map entry_bytes t1) ++ r1 = concat (map entry_bytes t2) ++ repeat 0 24 ++ r2 -> exists t3, t2 = t1 ++ t3.
Proof.
  induction t1 as [|x t1 IH]; intros t2 r1 r2 F1 F2 E; [now exists t2|].
  inversion F1 as [|? ? O1 F1']; subst. destruct t2 as [|y t2].
  - exfalso. cbn [map concat app] in E. rewrite <- app_assoc in E. apply app_same in E as [E _]; [|rewrite entry_bytes_length by apply O1; reflexivity].
    now apply O1.
  - inversion F2 as [|? ? O2 F2']; subst. cbn [map concat] in E. rewrite <- !app_assoc in E.
    apply app_same in E as [E1 E]; [|rewrite !entry_bytes_length; [reflexivity|apply O2|apply O1]].
    assert (x = y) as ->. { rewrite <- (entry_of_bytes x), <- (entry_of_bytes y) by (apply O1 || apply O2). now f_equal. }
    destruct (IH t2 r1 r2 F1' F2' E) as [t3 ->]. now exists t3.
Qed.

(* what the loop does once the entries t were read *)
Lemma loop_spec s e0 : bytes_ok s = true -> blen s < 2 ^ 32 - 24 ->
  forall fuel t rest, Forall entry_ok t -> Forall (fits s) t -> s = concat (map entry_bytes t) ++ rest ->
  (length s < fuel + length t)%nat ->
  match cert_loop fuel s (N.of_nat (length t)) (run_table s t e0) with
  | Ret (Ok e) => exists t', table s t' /\ Forall (fits s) t' /\ e = run_table s t' e0
  | Ret (Err _) => forall t', table s t' -> ~ Forall (fits s) t'
  | Crash => exists t' x rest', Forall entry_ok (t' ++ [x]) /\ Forall (fits s) t' /\ s = concat (map entry_bytes (t' ++ [x])) ++ rest' /\ 2 ^ 32 <= en_off x + en_len x
  end.
Proof.
  intros B Z. induction fuel as [|fuel IH]; intros t rest F1 F2 E L.
  - exfalso. apply (f_equal blen) in E. rewrite blen_app, concat_entries_len in E by assumption. unfold blen in E. lia.
  - cbn [cert_loop]. pose proof (concat_entries_len t F1) as CL.
    assert (E' : blen s = 24 * N.of_nat (length t) + blen rest) by (rewrite E, blen_app, CL; reflexivity).
    rewrite (N.mod_small (ENTRY_SIZE * (N.of_nat (length t) + 1))) by (unfold ENTRY_SIZE; lia).
    destruct (blen s <? ENTRY_SIZE * (N.of_nat (length t) + 1)) eqn:C; unfold ENTRY_SIZE in *.
    + apply N.ltb_lt in C. intros t' [T1 [r T2]] _. pose proof (concat_entries_len t' T1) as CL'.
      assert (X := T2). rewrite E in X. destruct (table_prefix t t' rest r F1 T1 X) as [t3 ->].
      assert (E3 : blen s = 24 * N.of_nat (length (t ++ t3)) + (24 + blen r)).
      { rewrite T2, !blen_app, CL'. reflexivity. }
      rewrite app_length in E3. lia.
    + apply N.ltb_ge in C. rewrite field_rd by lia. cbn [bind].
      assert (Fl : field s (24 * N.of_nat (length t)) 24 = firstn 24 rest).
      { rewrite E at 1. apply field_app_r. now rewrite CL. }
      pose proof (field_length s (24 * N.of_nat (length t)) 24 ltac:(lia)) as FL. rewrite Fl in *. change (N.to_nat 24) with 24%nat in FL.
      assert (Bf : bytes_ok (firstn 24 rest) = true).
      { apply bytes_ok_firstn. rewrite E, bytes_ok_app', andb_true_iff in B. tauto. }
      destruct (beq_spec (firstn 24 rest) (repeat 0 24)) as [Q|Q].
      * exists t. split; [|now split]. split; [assumption|]. exists (skipn 24 rest). rewrite E at 1. f_equal. rewrite <- Q. now rewrite firstn_skipn.
      * destruct (entry_bytes_of _ FL Bf Q) as [Eb Eo].
        set (x := entry_of (firstn 24 rest)) in *.
        change (le_num (field (firstn 24 rest) 16 4)) with (en_off x). change (le_num (field (firstn 24 rest) 20 4)) with (en_len x).
        change (field (firstn 24 rest) 0 16) with (en_uuid x).
        assert (F1' : Forall entry_ok (t ++ [x])) by (apply Forall_app; split; [assumption|now constructor]).
        assert (Es : s = concat (map entry_bytes (t ++ [x])) ++ skipn 24 rest).
        { rewrite map_app, concat_app. cbn [map concat]. rewrite app_nil_r, Eb, <- app_assoc, firstn_skipn. exact E. }
        destruct Eo as (_ & _ & Oo & Ol & _).
        destruct ((blen s <? en_off x) || (blen s <? (en_off x + en_len x) mod 2 ^ 32))%bool eqn:D.
        -- assert (NF : ~ fits s x).
           { unfold fits. intros G. rewrite N.mod_small in D by lia. apply orb_true_iff in D as [D|D]; apply N.ltb_lt in D; lia. }
           intros t' [T1 [r T2]] G. assert (X := T2). rewrite Es in X. destruct (table_prefix (t ++ [x]) t' _ r F1' T1 X) as [t3 ->].
           apply NF. rewrite Forall_forall in G. apply G. rewrite !in_app_iff. left. right. now left.
        -- apply orb_false_iff in D as [D1 D2]. apply N.ltb_ge in D1, D2.
           destruct (N.le_gt_cases (2 ^ 32) (en_off x + en_len x)) as [W|W].
           ++ unfold rd. rewrite (proj2 (N.leb_gt _ _)) by lia. cbn [bind]. exists t, x, (skipn 24 rest). auto.
           ++ rewrite N.mod_small in D2 by lia. rewrite field_rd by lia. cbn [bind].
              replace (N.of_nat (length t) + 1) with (N.of_nat (length (t ++ [x]))) by (rewrite app_length; cbn [length]; lia).
              change (field s (en_off x) (en_len x)) with (cert_of s x). rewrite <- run_table_app.
              apply (IH (t ++ [x]) (skipn 24 rest)); try assumption.
              ** apply Forall_app; split; [assumption|]. constructor; [exact D2|constructor].
              ** rewrite app_length. cbn [length]. lia.
Qed.
Lemma table_spec s e0 : bytes_ok s = true -> blen s < 2 ^ 32 - 24 ->
  match certs_to_endorsements s e0 with
  | Ret (Ok e) => exists t', table s t' /\ Forall (fits s) t' /\ e = run_table s t' e0
  | Ret (Err _) => forall t', table s t' -> ~ Forall (fits s) t'
  | Crash => exists t' x rest', Forall entry_ok (t' ++ [x]) /\ Forall (fits s) t' /\ s = concat (map entry_bytes (t' ++ [x])) ++ rest' /\ 2 ^ 32 <= en_off x + en_len x
  end.
Proof.
  intros B Z. exact (loop_spec s e0 B Z (S (length s)) [] s (Forall_nil _) (Forall_nil _) eq_refl ltac:(cbn; lia)).
Qed.

(* which certificate each field gets *)
Lemma run_last s uuid (get : sev_endorsements -> bytes) :
  (forall u c e, get (set_cert u c e) = if beq u uuid then c else get e) ->
  forall t e, last_of s t uuid (get e) (get (run_table s t e)).
Proof.
  intros G. induction t as [|x t IH] using rev_ind; intros e.
  - right. split; [intros y []|reflexivity].
  - rewrite run_table_app, G. destruct (beq_spec (en_uuid x) uuid) as [Q|Q].
    + left. exists t, x, []. split; [reflexivity|]. split; [assumption|]. split; [intros y []|reflexivity].
    + destruct (IH e) as [(t1 & y & t2 & -> & U & N & V)|[N V]].
      * left. exists t1, y, (t2 ++ [x]). rewrite <- app_assoc. split; [reflexivity|]. split; [assumption|]. split; [|assumption].
        intros z. rewrite in_app_iff. intros [Hz|[<-|[]]]; [now apply N|assumption].
      * right. split; [|assumption]. intros z. rewrite in_app_iff. intros [Hz|[<-|[]]]; [now apply N|assumption].
Qed.
Ltac uu := intros u c [v1 v2 v3 v4 v5]; unfold set_cert;
  repeat (match goal with |- context [beq u ?k] => destruct (beq_spec u k); [subst u|] end; cbn [se_vcek se_ask se_ark se_vlek se_crl]); try reflexivity; congruence.
Lemma set_vcek : forall u c e, se_vcek (set_cert u c e) = if beq u UUID_VCEK then c else se_vcek e. Proof. uu. Qed.
Lemma set_ask : forall u c e, se_ask (set_cert u c e) = if beq u UUID_ASK then c else se_ask e. Proof. uu. Qed.
Lemma set_ark : forall u c e, se_ark (set_cert u c e) = if beq u UUID_ARK then c else se_ark e. Proof. uu. Qed.
Lemma set_vlek : forall u c e, se_vlek (set_cert u c e) = if beq u UUID_VLEK then c else se_vlek e. Proof. uu. Qed.
Lemma set_crl : forall u c e, se_crl (set_cert u c e) = if beq u UUID_CRL then c else se_crl e. Proof. uu. Qed.

(* --- combining values --- *)
Lemma combine_lookup from : sorted from -> forall into k,
  lookup k (combine_values from into) =
  match lookup k from, lookup k into with
  | Some a, Some b => Some (lower a b) | Some a, None => Some a | None, o => o
  end.
Proof.
  induction from as [|[k0 v0] from IH]; intros Hs into k; [reflexivity|]. cbn [combine_values].
  destruct Hs as [Ha Hs]. rewrite IH by assumption. cbn [lookup]. 
  destruct (beq_spec k k0) as [->|N].
  - rewrite (all_above_lookup _ _ Ha). destruct (lookup k0 into) as [o|] eqn:O.
    + unfold lower. destruct (blt v0 o) eqn:B; [now rewrite lookup_put_same|now rewrite O].
    + now rewrite lookup_put_same.
  - destruct (lookup k0 into) as [o|] eqn:O; [destruct (blt v0 o)|]; rewrite ?lookup_put_other by assumption; reflexivity.
Qed.
