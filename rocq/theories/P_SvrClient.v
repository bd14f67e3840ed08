(* C107: the command-line client asks for the user it was given, and says with its
   status whether that was done. *)
From Verif Require Import Base Codec CodecSpec CodecProofs SvrClient.
Open Scope N_scope.

(* Specification: the name of a user, 16 bytes in hex. *)
Definition is_name (s : bytes) : Prop := length s = 32%nat /\ (forall c, In c s -> is_hex_digit c).
Definition hash_ok (h : bytes -> bytes) : Prop := forall x, length (h x) = 32%nat /\ bytes_ok (h x) = true.

Lemma hex_loop_length s o : hex_loop s = Hex_OK o -> length o = Nat.div2 (length s).
Proof.
  revert o. assert (G : forall n s, (length s <= n)%nat -> forall o, hex_loop s = Hex_OK o -> length o = Nat.div2 (length s)).
  { induction n as [|n IH]; intros l L o H.
    - destruct l; [|cbn in L; lia]. injection H as <-. reflexivity.
    - destruct l as [|c1 [|c2 l]]; [injection H as <-; reflexivity|injection H as <-; reflexivity|].
      cbn [hex_loop] in H. destruct (_ || _)%bool; [discriminate|]. destruct (hex_loop l) as [o'| |] eqn:E; try discriminate.
      injection H as <-. cbn [length Nat.div2]. f_equal. apply IH; [cbn in L; lia|exact E]. }
  intros o. apply (G (length s)). lia.
Qed.
Lemma hex_loop_digits s : Nat.Even (length s) -> ((exists o, hex_loop s = Hex_OK o) <-> forall c, In c s -> is_hex_digit c).
Proof.
  assert (G : forall n s, (length s <= n)%nat -> Nat.Even (length s) -> ((exists o, hex_loop s = Hex_OK o) <-> forall c, In c s -> is_hex_digit c)).
  { induction n as [|n IH]; intros l L E.
    - destruct l; [|cbn in L; lia]. split; [intros _ c []|intros _; exists []; reflexivity].
    - destruct l as [|c1 [|c2 l]]; [split; [intros _ c []|intros _; exists []; reflexivity]| |].
      + destruct E as [k E]. cbn in E. lia.
      + assert (E' : Nat.Even (length l)) by (destruct E as [k E]; exists (k - 1)%nat; cbn [length] in E; lia).
        specialize (IH l ltac:(cbn in L; lia) E'). cbn [hex_loop].
        destruct (hex_nibble c1 =? 255) eqn:E1.
        { cbn [orb]. split; [intros [o H]; discriminate|]. intros H. exfalso. apply N.eqb_eq in E1.
          apply (proj1 (hex_digit_nibble c1)); [apply H; left; reflexivity|exact E1]. }
        destruct (hex_nibble c2 =? 255) eqn:E2.
        { cbn [orb]. split; [intros [o H]; discriminate|]. intros H. exfalso. apply N.eqb_eq in E2.
          apply (proj1 (hex_digit_nibble c2)); [apply H; right; left; reflexivity|exact E2]. }
        apply N.eqb_neq in E1, E2. cbn [orb]. split.
        * intros [o H] c [<-|[<-|I]]; [apply hex_digit_nibble; exact E1|apply hex_digit_nibble; exact E2|].
          destruct (hex_loop l) as [o'| |] eqn:X; try discriminate. apply IH; [exists o'; reflexivity|exact I].
        * intros H. destruct (proj2 IH) as [o X]; [intros c I; apply H; right; right; exact I|]. rewrite X. eexists; reflexivity. }
  intros E. apply (G (length s)); [lia|exact E].
Qed.

Lemma to_user_cases h raw :
  (is_name raw /\ to_user h raw = raw) \/ (~ is_name raw /\ to_user h raw = bytes_to_hex (firstn 16 (h raw))).
Proof.
  unfold to_user, hex_to_bytes. destruct (blen raw mod 2 =? 0) eqn:B; cbn [negb].
  2: { right. split; [|reflexivity]. intros [L _]. apply N.eqb_neq in B. unfold blen in B. rewrite L in B. apply B. reflexivity. }
  assert (E : Nat.Even (length raw)).
  { apply N.eqb_eq in B. unfold blen in B. exists (N.to_nat (N.of_nat (length raw) / 2)).
    pose proof (N.div_mod' (N.of_nat (length raw)) 2). lia. }
  pose proof (hex_loop_digits raw E) as D. destruct (hex_loop raw) as [o| |] eqn:X.
  - pose proof (hex_loop_length _ _ X) as L. destruct (Nat.eqb_spec (length o) 16) as [F|F].
    + left. split; [|reflexivity]. split; [|apply D; exists o; reflexivity].
      destruct E as [k E]. rewrite E, Nat.div2_double in L. lia.
    + right. split; [|reflexivity]. intros [L' _]. rewrite L' in L. cbn in L. lia.
  - right. split; [|reflexivity]. intros [_ H]. apply D in H as [o H]. discriminate.
  - right. split; [|reflexivity]. intros [_ H]. apply D in H as [o H]. discriminate.
Qed.

Lemma hash_name h raw : hash_ok h -> bytes_ok (firstn 16 (h raw)) = true /\ is_name (bytes_to_hex (firstn 16 (h raw))).
Proof.
  intros H. destruct (H raw) as [L O].
  assert (F : bytes_ok (firstn 16 (h raw)) = true).
  { unfold bytes_ok in *. rewrite forallb_forall in *. intros x I. apply O.
    rewrite <- (firstn_skipn 16 (h raw)). apply in_or_app. left. exact I. }
  split; [exact F|]. assert (L2 : length (bytes_to_hex (firstn 16 (h raw))) = 32%nat) by (rewrite hex_len, firstn_length, L; reflexivity).
  split; [exact L2|]. apply hex_loop_digits; [rewrite L2; exists 16%nat; reflexivity|]. exists (firstn 16 (h raw)). apply hex_loop_enc; exact F.
Qed.

(* Whatever is given is turned into the name of a user; a name stays as it is, so
   a name that was printed can be given again. *)
Theorem C107_always_a_name h raw : hash_ok h ->
  is_name (to_user h raw) /\ (is_name raw -> to_user h raw = raw) /\ to_user h (to_user h raw) = to_user h raw.
Proof.
  intros H. assert (N : is_name (to_user h raw)).
  { destruct (to_user_cases h raw) as [[N ->]|[N ->]]; [exact N|]. apply hash_name; exact H. }
  split; [exact N|]. split.
  - intros R. destruct (to_user_cases h raw) as [[_ E]|[X _]]; [exact E|contradiction].
  - destruct (to_user_cases h (to_user h raw)) as [[_ E]|[X _]]; [exact E|contradiction].
Qed.
(* Two that are given are the same user only by a collision of half hashes, or if
   one is the name made of the other. *)
Theorem C107_users_differ h a b : hash_ok h -> to_user h a = to_user h b ->
  a = b \/ firstn 16 (h a) = firstn 16 (h b) \/ a = to_user h b \/ b = to_user h a.
Proof.
  intros H E. destruct (to_user_cases h a) as [[_ A]|[_ A]], (to_user_cases h b) as [[_ B]|[_ B]].
  - left. congruence.
  - right. right. left. congruence.
  - right. right. right. congruence.
  - right. left. rewrite A, B in E. destruct (hash_name h a H) as [Fa _], (hash_name h b H) as [Fb _].
    pose proof (hex_roundtrip _ Fa) as X. rewrite E, (hex_roundtrip _ Fb) in X. congruence.
Qed.

(* What each subcommand asks of the server, and the answers that mean it was done. *)
Inductive done (h : bytes -> bytes) (send : bytes -> request -> option response) (user : bytes) : subcommand -> Prop :=
| DBackup : send user (QBackup (h user) (h user) 5) = Some (RBackup 1) -> done h send user Backup
| DExpose : send user (QExpose (h user)) = Some (RExpose 1) -> done h send user Expose
| DRestore p pin d : hex_to_bytes p = Hex_OK pin -> send user (QRestore pin) = Some (RRestore 1 d) -> done h send user (Restore p)
| DDelete : send user QDelete = Some RDelete -> done h send user Delete.

(* Full: status 0 exactly if it was done.  It is so for backup and expose. *)
Theorem C107_status_says_partial h connect send name c raw :
  c = Backup \/ c = Expose ->
  (main h connect send name (Some c) raw = Ret 0 <-> connect (to_user h raw) = true /\ done h send (to_user h raw) c) /\
  (main h connect send name (Some c) raw = Ret 0 \/ main h connect send name (Some c) raw = Ret 1).
Proof.
  intros [-> | ->]; cbn [main]; unfold run_backup, run_expose; destruct (connect (to_user h raw)); cbn [negb exit_of].
  - destruct (send _ (QBackup _ _ 5)) as [[s|s|s d| |]|] eqn:E; cbn [exit_of].
    1: { destruct (s =? 1) eqn:S; cbn [exit_of].
      - apply N.eqb_eq in S. subst s. split; [|left; reflexivity]. split; [intros _; split; [reflexivity|constructor; exact E]|reflexivity].
      - apply N.eqb_neq in S. split; [|right; reflexivity]. split; [discriminate|]. intros [_ D]. inversion D. congruence. }
    all: split; [split; [discriminate|intros [_ D]; inversion D; congruence]|right; reflexivity].
  - split; [split; [discriminate|intros [D _]; discriminate]|right; reflexivity].
  - destruct (send _ (QExpose _)) as [[s|s|s d| |]|] eqn:E; cbn [exit_of].
    2: { destruct (s =? 1) eqn:S; cbn [exit_of].
      - apply N.eqb_eq in S. subst s. split; [|left; reflexivity]. split; [intros _; split; [reflexivity|constructor; exact E]|reflexivity].
      - apply N.eqb_neq in S. split; [|right; reflexivity]. split; [discriminate|]. intros [_ D]. inversion D. congruence. }
    all: split; [split; [discriminate|intros [_ D]; inversion D; congruence]|right; reflexivity].
  - split; [split; [discriminate|intros [D _]; discriminate]|right; reflexivity].
Qed.
(* What was done is said, by each of the four; status 0 of restore and delete means
   only that there was an answer. *)
Theorem C107_done_is_said_partial h connect send name c raw :
  connect (to_user h raw) = true -> done h send (to_user h raw) c ->
  main h connect send name (Some c) raw = Ret 0.
Proof.
  intros C D. destruct D as [E|E|p pin d P E|E]; cbn [main]; unfold run_backup, run_expose, run_restore, run_delete; rewrite C; cbn [negb];
    try rewrite P; rewrite E; reflexivity.
Qed.
Theorem C107_status_means_an_answer_partial h connect send name raw :
  (forall p, main h connect send name (Some (Restore p)) raw = Ret 0 <->
     connect (to_user h raw) = true /\ exists pin r, hex_to_bytes p = Hex_OK pin /\ send (to_user h raw) (QRestore pin) = Some r) /\
  (main h connect send name (Some Delete) raw = Ret 0 <->
     connect (to_user h raw) = true /\ exists r, send (to_user h raw) QDelete = Some r).
Proof.
  split; [intros p|]; cbn [main]; unfold run_restore, run_delete; destruct (connect (to_user h raw)); cbn [negb exit_of].
  - destruct (hex_to_bytes p) as [pin| |].
    + destruct (send (to_user h raw) (QRestore pin)) as [r|] eqn:E; cbn [exit_of].
      * split; [intros _; split; [reflexivity|]; exists pin, r; split; [reflexivity|exact E]|reflexivity].
      * split; [discriminate|]. intros [_ (pin' & r & H & S)]. injection H as <-. congruence.
    + split; [discriminate|]. intros [_ (pin' & r & H & S)]. discriminate.
    + split; [discriminate|]. intros [_ (pin' & r & H & S)]. discriminate.
  - split; [discriminate|]. intros [H _]. discriminate.
  - destruct (send (to_user h raw) QDelete) as [r|] eqn:E; cbn [exit_of].
    + split; [intros _; split; [reflexivity|]; exists r; reflexivity|reflexivity].
    + split; [discriminate|]. intros [_ [r H]]. discriminate.
  - split; [discriminate|]. intros [H _]. discriminate.
Qed.
(* A PIN that is wrong (3) is status 0, for every server that says so; so is a load
   test in which every backup failed, and a subcommand there is not. *)
Theorem C107_wrong_pin_succeeds_refuted h connect send name raw p pin :
  connect (to_user h raw) = true -> hex_to_bytes p = Hex_OK pin -> send (to_user h raw) (QRestore pin) = Some (RRestore 3 []) ->
  main h connect send name (Some (Restore p)) raw = Ret 0 /\ ~ done h send (to_user h raw) (Restore p).
Proof.
  intros C P S. cbn [main]. unfold run_restore. rewrite C, P, S. split; [reflexivity|]. intros D. inversion D. congruence.
Qed.
Theorem C107_failed_load_test_succeeds_refuted h send name raw p n :
  (forall user parallel count b, In b (snd (run_load_test h (fun _ => false) send name user parallel count)) -> b = false) /\
  main h (fun _ => false) send name (Some (Load p n)) raw = Ret 0 /\
  length (snd (run_load_test h (fun _ => false) send name raw (S p) n)) = n.
Proof.
  split; [|split].
  - intros user [|k] count b; cbn [run_load_test snd]; [intros []|]. intros I. apply in_map_iff in I as (u & <- & _). reflexivity.
  - destruct p; reflexivity.
  - cbn [run_load_test snd]. unfold load_users. rewrite !map_length, seq_length. reflexivity.
Qed.
Theorem C107_unknown_succeeds_refuted h connect send name raw :
  main h connect send name (Some Unknown) raw = Ret 0 /\ main h connect send name None raw = Crash.
Proof. split; reflexivity. Qed.

Definition h0 (x : bytes) : bytes := repeat (blen x mod 256) 32.
Example C107_hash_ok : hash_ok h0.
Proof.
  intros x. unfold h0. split; [apply repeat_length|]. unfold bytes_ok. apply forallb_forall. intros y I. apply repeat_spec in I. subst y.
  unfold byte_ok. apply N.ltb_lt. apply N.mod_lt. discriminate.
Qed.
Example C107_meets : to_user h0 [116; 101; 115] = concat (repeat [48; 51] 16) /\
  to_user h0 (concat (repeat [65; 49] 16)) = concat (repeat [65; 49] 16) /\
  main h0 (fun _ => true) (fun u q => match q with QBackup d p 5 => Some (RBackup 1) | _ => Some ROther end) (fun u _ => u) (Some Backup) [1] = Ret 0 /\
  main h0 (fun _ => true) (fun u q => Some ROther) (fun u _ => u) (Some Backup) [1] = Ret 1 /\
  main h0 (fun _ => true) (fun u q => Some (RRestore 3 [])) (fun u _ => u) (Some (Restore [49; 50])) [1] = Ret 0.
Proof. vm_compute. repeat split. Qed.

Print Assumptions C107_always_a_name.
Print Assumptions C107_users_differ.
Print Assumptions C107_status_says_partial.
Print Assumptions C107_done_is_said_partial.
Print Assumptions C107_status_means_an_answer_partial.
Print Assumptions C107_wrong_pin_succeeds_refuted.
Print Assumptions C107_failed_load_test_succeeds_refuted.
Print Assumptions C107_unknown_succeeds_refuted.
