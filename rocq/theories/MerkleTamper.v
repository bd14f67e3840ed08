(* Tampering with the tree's memory. *)
From Verif Require Import Merkle MerkleSpec DBHashProofs MerkleProofs.

Section Tamper.
Variable sip8 : bytes -> bytes.
Hypothesis sip8_len : forall x, length (sip8 x) = 8%nat.

Lemma sized_hashes : forall s h, sized_slots s -> In h (hashes s) -> length h = 8%nat.
Proof. induction s as [|g s IH|g p s IH]; cbn; intros h H I; [tauto| |]; destruct I as [<-|I]; intuition. Qed.
Lemma concat_inj8 (a b : list bytes) :
  length a = length b -> (forall h, In h a -> length h = 8%nat) -> (forall h, In h b -> length h = 8%nat) ->
  concat a = concat b -> a = b.
Proof.
  revert b; induction a as [|x a IH]; intros [|y b] L A B E; cbn in *; try discriminate; [reflexivity|].
  apply app_len_inj in E as [-> E]; [|rewrite A, B; auto]. f_equal. apply IH; auto.
Qed.
Lemma same_len : forall s r, same_slots s r -> length (hashes s) = length (hashes r).
Proof. induction s as [|g s IH|g p s IH]; intros [|g' r|g' q r]; cbn; intuition. Qed.
Lemma compute_inj s r : same_slots s r -> sized_slots s -> sized_slots r ->
  compute sip8 s = compute sip8 r -> hashes s = hashes r \/ collision sip8.
Proof.
  intros S Z1 Z2 E. unfold compute in E.
  destruct (bytes_dec (concat (hashes s)) (concat (hashes r))) as [Q|Q].
  - left. apply concat_inj8; auto; [now apply same_len| |]; intros h I; [apply (sized_hashes s)|apply (sized_hashes r)]; auto.
  - right. eexists; eexists; split; eauto.
Qed.
Lemma same_fst :
  (forall p q h g, same_part p q -> map fst (leaves_part h p) = map fst (leaves_part g q)) /\
  (forall s r, same_slots s r -> map fst (leaves s) = map fst (leaves r)).
Proof.
  apply part_slots_ind; cbn.
  - intros i [j|]; cbn; [intros; subst; reflexivity|tauto].
  - intros c s IH [|d r]; cbn; [tauto|]. intros h g [_ H]; auto.
  - intros [| |]; cbn; tauto.
  - intros h s IH [|g r|]; cbn; try tauto. auto.
  - intros h p IHp s IHs [|g r|g q r]; cbn; try tauto. intros [H1 H2].
    rewrite !map_app. f_equal; auto.
Qed.
Lemma verify_some id c :
  (forall p h x, verify_part sip8 id c h p = Some x -> In id (map fst (leaves_part h p))) /\
  (forall s x, verify_slots sip8 id c s = Some x -> In id (map fst (leaves s))).
Proof.
  apply part_slots_ind; cbn.
  - intros j h x. destruct (beq_spec j id) as [->|]; [auto|discriminate].
  - intros d s IH h x. destruct (verify_slots sip8 id c s) as [[l n]|]; [|discriminate]. eauto.
  - discriminate.
  - auto.
  - intros h p IHp s IHs x. rewrite map_app, in_app_iff.
    destruct (verify_part sip8 id c h p) eqn:E; eauto.
Qed.
Lemma verify_none id c :
  (forall p h, verify_part sip8 id c h p = None -> ~ In id (map fst (leaves_part h p))) /\
  (forall s, verify_slots sip8 id c s = None -> ~ In id (map fst (leaves s))).
Proof.
  apply part_slots_ind; cbn.
  - intros j h. destruct (beq_spec j id) as [->|]; [discriminate|]. tauto.
  - intros d s IH h. destruct (verify_slots sip8 id c s) as [[l n]|]; [discriminate|]. auto.
  - tauto.
  - auto.
  - intros h p IHp s IHs. rewrite map_app, in_app_iff.
    destruct (verify_part sip8 id c h p) eqn:E; [discriminate|]. intros H [I|I]; [eapply IHp|eapply IHs]; eauto.
Qed.

(* a successful Verify in the tampered memory reads what the honest memory holds *)
Lemma tamper_read id c :
  (forall p q h, cons_part sip8 h p -> same_part p q -> sized_part p -> sized_part q ->
     verify_part sip8 id c h q = Some (true, true) ->
     lookup id (leaves_part h p) = Some c \/ collision sip8) /\
  (forall s r, cons sip8 s -> same_slots s r -> sized_slots s -> sized_slots r -> hashes s = hashes r ->
     verify_slots sip8 id c r = Some (true, true) ->
     lookup id (leaves s) = Some c \/ collision sip8).
Proof.
  apply part_slots_ind.
  - intros i [j|]; cbn; [|tauto]. intros h _ -> _ _ H. rewrite (beq_sym id j).
    destruct (beq j id); [|discriminate]. injection H as H. apply beq_eq in H. subst; auto.
  - intros d s IH [|d' r]; cbn; [tauto|]. intros h [-> C] [_ S] Z1 Z2 H.
    destruct (verify_slots sip8 id c r) as [[l n]|] eqn:V; [|discriminate].
    injection H as -> H. apply andb_true_iff in H as [-> H]. apply beq_eq in H.
    destruct (compute_inj s r S Z1 Z2) as [E|E]; [auto| |auto]. exact (IH r C S Z1 Z2 E V).
  - intros [| |]; cbn; try tauto. discriminate.
  - intros h s IH [|g r|]; cbn; try tauto. intros C S [Z1 Z2] [Z3 Z4] E. injection E as _ E. eauto.
  - intros h p IHp s IHs [|g r|g q r]; cbn; try tauto.
    intros [Cp Cs] [Sp Ss] [Z1 [Z2 Z3]] [Z4 [Z5 Z6]] E. injection E as <- E.
    rewrite lookup_app.
    destruct (verify_part sip8 id c h q) as [[l n]|] eqn:V.
    + intros X; injection X as -> ->. destruct (IHp q h) as [->|]; auto.
    + intros X. rewrite lookup_not_in; [eauto|].
      rewrite (proj1 same_fst p q h h Sp). eapply verify_none; eauto.
Qed.

Lemma tamper_update id c x :
  (forall p q h, cons_part sip8 h p -> same_part p q -> sized_part p -> sized_part q ->
     length x = 8%nat ->
     verify_part sip8 id c h q = Some (true, true) ->
     collision sip8 \/ exists p' q' g, update_part sip8 id x p = Some (p', g) /\
       update_part sip8 id x q = Some (q', g) /\ same_part p' q' /\
       sized_part p' /\ sized_part q' /\ length g = 8%nat) /\
  (forall s r, cons sip8 s -> same_slots s r -> sized_slots s -> sized_slots r -> hashes s = hashes r ->
     length x = 8%nat ->
     verify_slots sip8 id c r = Some (true, true) ->
     collision sip8 \/ exists s' r', update_slots sip8 id x s = Some s' /\
       update_slots sip8 id x r = Some r' /\ same_slots s' r' /\
       sized_slots s' /\ sized_slots r' /\ hashes s' = hashes r').
Proof.
  apply part_slots_ind.
  - intros i [j|]; cbn; [|tauto]. intros h _ -> _ _ L H.
    destruct (beq j id); [|discriminate]. right. exists (Leaf j), (Leaf j), x. cbn; auto 10.
  - intros d s IH [|d' r]; cbn; [tauto|]. intros h [-> C] [-> S] Z1 Z2 L H.
    destruct (verify_slots sip8 id c r) as [[l n]|] eqn:V; [|discriminate].
    injection H as -> H. apply andb_true_iff in H as [-> H]. apply beq_eq in H.
    destruct (compute_inj s r S Z1 Z2) as [E|E]; [auto| |auto].
    destruct (IH r C S Z1 Z2 E L V) as [?|[s' [r' [-> [-> [S' [Z1' [Z2' E']]]]]]]]; [auto|].
    right. exists (Node d' s'), (Node d' r'), (compute sip8 s'). cbn.
    unfold compute. rewrite E', sip8_len. auto 10.
  - intros [| |]; cbn; try tauto. discriminate.
  - intros h s IH [|g r|]; cbn; try tauto. intros C S [Z1 Z2] [Z3 Z4] E L V. injection E as <- E.
    destruct (IH r C S Z2 Z4 E L V) as [?|[s' [r' [-> [-> [S' [Z1' [Z2' E']]]]]]]]; [auto|].
    right. exists (SEmpty h s'), (SEmpty h r'). cbn. rewrite E'. auto 10.
  - intros h p IHp s IHs [|g r|g q r]; cbn; try tauto.
    intros [Cp Cs] [Sp Ss] [Z1 [Z2 Z3]] [Z4 [Z5 Z6]] E L. injection E as <- E.
    destruct (verify_part sip8 id c h q) as [[l n]|] eqn:V.
    + intros X; injection X as -> ->.
      destruct (IHp q h Cp Sp Z2 Z5 L V) as [?|[p' [q' [g [-> [-> [S' [Z1' [Z2' L']]]]]]]]]; [auto|].
      right. exists (SFull g p' s), (SFull g q' r). cbn. rewrite E. auto 10.
    + intros X. pose proof (proj1 (verify_none id c) q h V) as NI.
      rewrite (proj1 (update_none sip8 id x) q h NI).
      rewrite <- (proj1 same_fst p q h h Sp) in NI.
      rewrite (proj1 (update_none sip8 id x) p h NI).
      destruct (IHs r Cs Ss Z3 Z6 E L X) as [?|[s' [r' [-> [-> [S' [Z1' [Z2' E']]]]]]]]; [auto|].
      right. exists (SFull h p s'), (SFull h q r'). cbn. rewrite E'. auto 10.
Qed.

Lemma same_parts : forall s r, same_slots s r -> parts s = parts r.
Proof. induction s as [|g s IH|g p s IH]; intros [|g' r|g' q r]; cbn; intuition. Qed.
Lemma tamper_remove id c :
  (forall p q h, cons_part sip8 h p -> same_part p q -> sized_part p -> sized_part q ->
     verify_part sip8 id c h q = Some (true, true) ->
     collision sip8 \/
     (remove_part sip8 id p = Some None /\ remove_part sip8 id q = Some None) \/
     exists p' q' g, remove_part sip8 id p = Some (Some (p', g)) /\
       remove_part sip8 id q = Some (Some (q', g)) /\ same_part p' q' /\
       sized_part p' /\ sized_part q' /\ length g = 8%nat) /\
  (forall s r, cons sip8 s -> same_slots s r -> sized_slots s -> sized_slots r -> hashes s = hashes r ->
     verify_slots sip8 id c r = Some (true, true) ->
     collision sip8 \/ exists s' r', remove_slots sip8 id s = Some s' /\
       remove_slots sip8 id r = Some r' /\ same_slots s' r' /\
       sized_slots s' /\ sized_slots r' /\ hashes s' = hashes r').
Proof.
  apply part_slots_ind.
  - intros i [j|]; cbn; [|tauto]. intros h _ -> _ _ H.
    destruct (beq j id); [|discriminate]. auto.
  - intros d s IH [|d' r]; cbn; [tauto|]. intros h [-> C] [-> S] Z1 Z2 H.
    destruct (verify_slots sip8 id c r) as [[l n]|] eqn:V; [|discriminate].
    injection H as -> H. apply andb_true_iff in H as [-> H]. apply beq_eq in H.
    destruct (compute_inj s r S Z1 Z2) as [E|E]; [auto| |auto].
    destruct (IH r C S Z1 Z2 E V) as [?|[s' [r' [-> [-> [S' [Z1' [Z2' E']]]]]]]]; [auto|].
    right. rewrite (same_parts _ _ S'). destruct (Nat.eqb (parts r') 0 && negb d')%bool; [auto|right].
    exists (Node d' s'), (Node d' r'), (compute sip8 s'). cbn.
    unfold compute. rewrite E', sip8_len. auto 10.
  - intros [| |]; cbn; try tauto. discriminate.
  - intros h s IH [|g r|]; cbn; try tauto. intros C S [Z1 Z2] [Z3 Z4] E V. injection E as <- E.
    destruct (IH r C S Z2 Z4 E V) as [?|[s' [r' [-> [-> [S' [Z1' [Z2' E']]]]]]]]; [auto|].
    right. exists (SEmpty h s'), (SEmpty h r'). cbn. rewrite E'. auto 10.
  - intros h p IHp s IHs [|g r|g q r]; cbn [same_slots sized_slots hashes verify_slots remove_slots cons]; try tauto.
    intros [Cp Cs] [Sp Ss] [Z1 [Z2 Z3]] [Z4 [Z5 Z6]] E. injection E as <- E.
    destruct (verify_part sip8 id c h q) as [[l n]|] eqn:V.
    + intros X; injection X as -> ->.
      destruct (IHp q h Cp Sp Z2 Z5 V) as [?|[[-> ->]|[p' [q' [g [-> [-> [S' [Z1' [Z2' L']]]]]]]]]]; [auto| |].
      * right. exists (SEmpty zero_hash s), (SEmpty zero_hash r). cbn [same_slots sized_slots hashes].
        rewrite E. auto 10.
      * right. exists (SFull g p' s), (SFull g q' r). cbn. rewrite E. auto 10.
    + intros X. pose proof (proj1 (verify_none id c) q h V) as NI.
      rewrite (proj1 (remove_none sip8 id) q h NI).
      rewrite <- (proj1 same_fst p q h h Sp) in NI.
      rewrite (proj1 (remove_none sip8 id) p h NI).
      destruct (IHs r Cs Ss Z3 Z6 E X) as [?|[s' [r' [-> [-> [S' [Z1' [Z2' E']]]]]]]]; [auto|].
      right. exists (SFull h p s'), (SFull h q r'). cbn. rewrite E'. auto 10.
Qed.

(* honest trees have 8-byte hashes *)
Lemma sized_zero : length zero_hash = 8%nat. Proof. reflexivity. Qed.
Lemma sized_chain i id : sized_part (chain i id).
Proof. induction i as [|i IH]; cbn; auto 10. Qed.
Lemma sized_insert p s s' : insert p s = Some s' -> sized_part p -> sized_slots s -> sized_slots s'.
Proof.
  revert s'; induction s as [|h s IH|h q s IH]; cbn; intros s' H Z1 Z2; [discriminate|injection H as <-; cbn; tauto|].
  destruct (insert p s) as [x|]; [|discriminate]. injection H as <-; cbn. intuition.
Qed.
Lemma sized_grow id :
  (forall p, sized_part p ->
     match grow_part id p with NeedSpace _ x | Grown x => sized_part x | _ => True end) /\
  (forall s, sized_slots s ->
     match grow_slots id s with NeedSpace _ x | Grown x => sized_slots x | _ => True end).
Proof.
  apply part_slots_ind; cbn [grow_part grow_slots].
  - auto.
  - intros d s IH Z. cbn in Z. destruct d.
    + destruct (full s); [exact Z|]. unfold gput. destruct (insert (Leaf id) s) eqn:E; [|auto].
      cbn. eapply sized_insert; eauto; cbn; auto.
    + specialize (IH Z). destruct (grow_slots id s) as [|i x|x|]; auto.
      destruct (full x); [exact IH|]. unfold gput. destruct (insert (chain i id) x) eqn:E; [|auto].
      cbn. eapply sized_insert; eauto. apply sized_chain.
  - auto.
  - intros h s IH Z. cbn in Z. destruct Z as [Z1 Z2]. specialize (IH Z2). destruct (grow_slots id s); cbn; auto.
  - intros h p IHp s IHs Z. cbn in Z. destruct Z as [Z1 [Z2 Z3]].
    specialize (IHp Z2); specialize (IHs Z3).
    destruct (grow_part id p); cbn; auto. destruct (grow_slots id s); cbn; auto.
Qed.
Lemma sized_update id x : length x = 8%nat ->
  (forall p, sized_part p -> match update_part sip8 id x p with Some (p', g) => sized_part p' /\ length g = 8%nat | _ => True end) /\
  (forall s, sized_slots s -> match update_slots sip8 id x s with Some s' => sized_slots s' | _ => True end).
Proof.
  intros L. apply part_slots_ind; cbn.
  - intros j _. destruct (beq j id); cbn; auto.
  - intros d s IH Z. specialize (IH Z). destruct (update_slots sip8 id x s); cbn; auto.
    split; [auto|apply sip8_len].
  - auto.
  - intros h s IH [Z1 Z2]. specialize (IH Z2). destruct (update_slots sip8 id x s); cbn; auto.
  - intros h p IHp s IHs [Z1 [Z2 Z3]]. specialize (IHp Z2); specialize (IHs Z3).
    destruct (update_part sip8 id x p) as [[p' g]|]; cbn; [tauto|].
    destruct (update_slots sip8 id x s); cbn; auto.
Qed.
Lemma sized_remove id :
  (forall p, sized_part p -> match remove_part sip8 id p with Some (Some (p', g)) => sized_part p' /\ length g = 8%nat | _ => True end) /\
  (forall s, sized_slots s -> match remove_slots sip8 id s with Some s' => sized_slots s' | _ => True end).
Proof.
  apply part_slots_ind; cbn.
  - intros j _. destruct (beq j id); cbn; auto.
  - intros d s IH Z. specialize (IH Z). destruct (remove_slots sip8 id s); cbn; auto.
    destruct (Nat.eqb (parts s0) 0 && negb d)%bool; auto. split; [auto|apply sip8_len].
  - auto.
  - intros h s IH [Z1 Z2]. specialize (IH Z2). destruct (remove_slots sip8 id s); cbn; auto.
  - intros h p IHp s IHs [Z1 [Z2 Z3]]. specialize (IHp Z2); specialize (IHs Z3).
    destruct (remove_part sip8 id p) as [[[p' g]|]|]; cbn; [tauto|auto|].
    destruct (remove_slots sip8 id s); cbn; auto.
Qed.

Definition tsized (t : tree) : Prop := length (roothash t) = 8%nat /\ sized_slots (root t).
Lemma tsized_update id x t t' : length x = 8%nat -> tsized t -> update sip8 id x t = Ret t' -> tsized t'.
Proof.
  intros L [_ Z] E. unfold update in E. pose proof (proj2 (sized_update id x L) _ Z) as U.
  destruct (update_slots sip8 id x (root t)); [|discriminate]. injection E as <-. split; [apply sip8_len|auto].
Qed.
Lemma tsized_remove id t t' : tsized t -> remove sip8 id t = Ret t' -> tsized t'.
Proof.
  intros [_ Z] E. unfold remove in E. pose proof (proj2 (sized_remove id) _ Z) as U.
  destruct (remove_slots sip8 id (root t)); [|discriminate]. injection E as <-. split; [apply sip8_len|auto].
Qed.
Lemma tsized_new id t t' : tsized t -> new_leaf id t = Ret t' -> tsized t'.
Proof.
  intros [Zr Z] E. unfold new_leaf in E.
  pose proof (proj1 (sized_grow id) (Node (rootcurr t) (root t)) Z) as U.
  destruct (grow_part id (Node (rootcurr t) (root t))) as [|i x|x|]; try discriminate.
  - change (insert x fresh_slots) with (Some (SFull zero_hash x
          (SEmpty zero_hash (SEmpty zero_hash (SEmpty zero_hash (SEmpty zero_hash SNil)))))) in E.
    cbv iota beta in E.
    destruct (insert (chain i id) _) eqn:I in E; [|discriminate]. injection E as <-.
    split; [exact Zr|]. cbn. eapply sized_insert; eauto; [apply sized_chain|cbn; auto 12].
  - destruct x as [|d s]; [discriminate|]. injection E as <-. split; auto.
Qed.
Lemma tsized_step t o t' : op_sized o -> tsized t -> mstep sip8 t o = Ret t' -> tsized t'.
Proof.
  destruct o; cbn; intros L Z E.
  - unfold add in E. destruct (new_leaf id t) eqn:N; [|discriminate].
    eapply tsized_update; [exact L| |exact E]. eapply tsized_new; eauto.
  - eapply tsized_update; eauto.
  - eapply tsized_remove; eauto.
Qed.
Lemma tsized_empty : tsized (empty_tree sip8).
Proof. split; cbn; [apply sip8_len|auto 10]. Qed.
Lemma tsized_run h t t' : Forall op_sized h -> tsized t -> mrun sip8 t h = Ret t' -> tsized t'.
Proof.
  revert t; induction h as [|o h IH]; cbn; intros t F Z E; [now injection E as <-|].
  inversion F; subst. destruct (mstep sip8 t o) eqn:S; [|discriminate].
  apply (IH a); auto. eapply tsized_step; eauto.
Qed.

(* t' has the same verified content as the honest t *)
Lemma tamper_verify t t' id c :
  tree_ok sip8 t -> tsized t -> tampered t t' -> verify sip8 id c t' = Ret V_OK ->
  lookup id (leaves (root t)) = Some c \/ collision sip8.
Proof.
  intros K [_ Z] [R [_ [S Z']]] V. unfold verify in V.
  destruct (verify_slots sip8 id c (root t')) as [[l n]|] eqn:E; [|discriminate].
  destruct l; [|discriminate].
  destruct (n && beq (compute sip8 (root t')) (roothash t'))%bool eqn:B; [|discriminate].
  apply andb_true_iff in B as [-> B]. apply beq_eq in B.
  destruct K. rewrite R, ok_root in B.
  destruct (compute_inj (root t) (root t') S Z Z') as [H|H]; auto.
  eapply (proj2 (tamper_read id c)); eauto.
Qed.
Lemma tamper_verified_update t t' id c x :
  tree_ok sip8 t -> tsized t -> tampered t t' -> verify sip8 id c t' = Ret V_OK -> length x = 8%nat ->
  collision sip8 \/ exists u u', update sip8 id x t = Ret u /\ update sip8 id x t' = Ret u' /\ tampered u u'.
Proof.
  intros K [_ Z] [R [F [S Z']]] V L. unfold verify in V.
  destruct (verify_slots sip8 id c (root t')) as [[l n]|] eqn:E; [|discriminate].
  destruct l; [|discriminate].
  destruct (n && beq (compute sip8 (root t')) (roothash t'))%bool eqn:B; [|discriminate].
  apply andb_true_iff in B as [-> B]. apply beq_eq in B.
  destruct K. rewrite R, ok_root in B.
  destruct (compute_inj (root t) (root t') S Z Z') as [H|H]; auto.
  destruct (proj2 (tamper_update id c x) _ _ ok_cons S Z Z' H L E) as [?|[s' [r' [E1 [E2 [E3 [E4 [E5 E6]]]]]]]]; [auto|].
  right. unfold update. rewrite E1, E2. eexists; eexists; split; [reflexivity|]. split; [reflexivity|].
  unfold tampered; cbn. unfold compute. rewrite E6. auto.
Qed.
Lemma tamper_verified_remove t t' id c :
  tree_ok sip8 t -> tsized t -> tampered t t' -> verify sip8 id c t' = Ret V_OK ->
  collision sip8 \/ exists u u', remove sip8 id t = Ret u /\ remove sip8 id t' = Ret u' /\ tampered u u'.
Proof.
  intros K [_ Z] [R [F [S Z']]] V. unfold verify in V.
  destruct (verify_slots sip8 id c (root t')) as [[l n]|] eqn:E; [|discriminate].
  destruct l; [|discriminate].
  destruct (n && beq (compute sip8 (root t')) (roothash t'))%bool eqn:B; [|discriminate].
  apply andb_true_iff in B as [-> B]. apply beq_eq in B.
  destruct K. rewrite R, ok_root in B.
  destruct (compute_inj (root t) (root t') S Z Z') as [H|H]; auto.
  destruct (proj2 (tamper_remove id c) _ _ ok_cons S Z Z' H E) as [?|[s' [r' [E1 [E2 [E3 [E4 [E5 E6]]]]]]]]; [auto|].
  right. unfold remove. rewrite E1, E2. eexists; eexists; split; [reflexivity|]. split; [reflexivity|].
  unfold tampered; cbn. unfold compute. rewrite E6. auto.
Qed.

Lemma same_trans :
  (forall p q r, same_part p q -> same_part q r -> same_part p r) /\
  (forall s r x, same_slots s r -> same_slots r x -> same_slots s x).
Proof.
  apply part_slots_ind; cbn.
  - intros i [j|]; cbn; [|tauto]. intros [k|]; cbn; [congruence|tauto].
  - intros d s IH [|d' r]; cbn; [tauto|]. intros [|d2 x]; cbn; [tauto|]. intros [-> ?] [-> ?]. eauto.
  - intros [| |]; cbn; try tauto.
  - intros h s IH [|g r|]; cbn; try tauto. intros [|k x|]; cbn; try tauto. eauto.
  - intros h p IHp s IHs [|g r|g q r]; cbn; try tauto. intros [|k x|k y x]; cbn; try tauto. intuition eauto.
Qed.
Lemma tampered_trans a b c : tampered a b -> tampered b c -> tampered a c.
Proof.
  intros (A1 & A2 & A3 & A4) (B1 & B2 & B3 & B4). unfold tampered.
  do 2 (split; [congruence|]). split; [eapply (proj2 same_trans); eauto|auto].
Qed.
Lemma same_refl : (forall p, same_part p p) /\ (forall s, same_slots s s).
Proof. apply part_slots_ind; cbn; auto. Qed.
Lemma tampered_refl t : tsized t -> tampered t t.
Proof. intros [_ Z]. unfold tampered. do 2 (split; [auto|]). split; [apply same_refl|exact Z]. Qed.

(* memory that was tampered with any number of times, between requests that
   verify the leaf they change *)
Lemma attacked_honest h t : attacked sip8 h t ->
  collision sip8 \/ exists t0, holds sip8 t0 (fun k => current k h) /\ tsized t0 /\ tampered t0 t.
Proof.
  induction 1 as [h t U S E|h t t' A IH T|h t id c x u A IH V L E|h t id c u A IH V E].
  - right. destruct (mrun_holds sip8 h U) as [t1 [E1 H1]]. rewrite E in E1. injection E1 as <-.
    assert (Z : tsized t) by (eapply tsized_run; [exact S|apply tsized_empty|exact E]).
    exists t. split; [exact H1|]. split; [exact Z|]. now apply tampered_refl.
  - destruct IH as [?|(t0 & H0 & Z0 & T0)]; [auto|]. right. exists t0. do 2 (split; [auto|]).
    eapply tampered_trans; eauto.
  - destruct IH as [?|(t0 & [K0 H0] & Z0 & T0)]; [auto|].
    destruct (tamper_verify _ _ _ _ K0 Z0 T0 V) as [LK|?]; [|auto].
    destruct (tamper_verified_update _ _ _ _ x K0 Z0 T0 V L) as [?|(w & w' & U1 & U2 & T')]; [auto|].
    right. rewrite E in U2. injection U2 as <-. exists w.
    destruct (mstep_ok sip8 t0 (MUpdate id x) _ (conj K0 H0)) as [w2 [W1 [W2 W3]]].
    { rewrite <- H0, LK. discriminate. }
    cbn [mstep] in W1. rewrite U1 in W1. injection W1 as <-.
    split; [|split; [eapply tsized_update; eauto|exact T']].
    split; [exact W2|]. intros k. rewrite W3. unfold current. rewrite fold_left_app. reflexivity.
  - destruct IH as [?|(t0 & [K0 H0] & Z0 & T0)]; [auto|].
    destruct (tamper_verify _ _ _ _ K0 Z0 T0 V) as [LK|?]; [|auto].
    destruct (tamper_verified_remove _ _ _ _ K0 Z0 T0 V) as [?|(w & w' & U1 & U2 & T')]; [auto|].
    right. rewrite E in U2. injection U2 as <-. exists w.
    destruct (mstep_ok sip8 t0 (MRemove id) _ (conj K0 H0)) as [w2 [W1 [W2 W3]]].
    { rewrite <- H0, LK. discriminate. }
    cbn [mstep] in W1. rewrite U1 in W1. injection W1 as <-.
    split; [|split; [eapply tsized_remove; eauto|exact T']].
    split; [exact W2|]. intros k. rewrite W3. unfold current. rewrite fold_left_app. reflexivity.
Qed.
Lemma attacked_verify h t id c : attacked sip8 h t -> verify sip8 id c t = Ret V_OK ->
  current id h = Some c \/ collision sip8.
Proof.
  intros A V. destruct (attacked_honest _ _ A) as [?|(t0 & [K0 H0] & Z0 & T0)]; [auto|].
  destruct (tamper_verify _ _ _ _ K0 Z0 T0 V) as [LK|?]; [|auto]. left. now rewrite <- H0.
Qed.
End Tamper.
