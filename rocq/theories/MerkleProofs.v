From Verif Require Import Merkle MerkleSpec DBHashProofs.
From Coq Require Import Permutation.

Scheme part_mut := Induction for part Sort Prop
  with slots_mut := Induction for slots Sort Prop.
Combined Scheme part_slots_ind from part_mut, slots_mut.

Fixpoint leaves_part (h : bytes) (p : part) : list (bytes * bytes) :=
  match p with Leaf j => [(j, h)] | Node _ s => leaves s end
with leaves (s : slots) : list (bytes * bytes) :=
  match s with
  | SNil => [] | SEmpty _ s' => leaves s' | SFull h p s' => leaves_part h p ++ leaves s'
  end.
Fixpoint cnt_part (p : part) : nat :=
  match p with Leaf _ => 0 | Node c s => ((if c then 1 else 0) + cnt s)%nat end
with cnt (s : slots) : nat :=
  match s with SNil => 0 | SEmpty _ s' => cnt s' | SFull _ p s' => (cnt_part p + cnt s')%nat end.
Fixpoint slen (s : slots) : nat :=
  match s with SNil => 0 | SEmpty _ s' => S (slen s') | SFull _ _ s' => S (slen s') end.
Fixpoint wf_part (p : part) : Prop :=
  match p with Leaf _ => True | Node _ s => slen s = NODE_SIZE /\ wf_slots s end
with wf_slots (s : slots) : Prop :=
  match s with SNil => True | SEmpty _ s' => wf_slots s' | SFull _ p s' => wf_part p /\ wf_slots s' end.

Lemma lookup_app {V} k (a b : list (bytes * V)) :
  lookup k (a ++ b) = match lookup k a with Some v => Some v | None => lookup k b end.
Proof. induction a as [|[k' v] a IH]; cbn; [auto|]. destruct (beq k k'); auto. Qed.

Lemma lookup_not_in {V} k (l : list (bytes * V)) : ~ In k (map fst l) -> lookup k l = None.
Proof.
  induction l as [|[k' v] l IH]; cbn; [auto|]. intros H.
  destruct (beq_spec k k') as [->|]; [exfalso; auto|]. apply IH; tauto.
Qed.
Lemma lookup_in {V} k (l : list (bytes * V)) : In k (map fst l) -> exists v, lookup k l = Some v.
Proof.
  induction l as [|[k' v] l IH]; cbn; [tauto|]. intros H.
  destruct (beq_spec k k') as [->|N]; [eauto|]. destruct H; [congruence|auto].
Qed.
Lemma lookup_some_in {V} k (l : list (bytes * V)) v : lookup k l = Some v -> In k (map fst l).
Proof.
  intros H. destruct (in_dec bytes_dec k (map fst l)) as [I|I]; [auto|].
  apply lookup_not_in in I; congruence.
Qed.

Lemma parts_slen s : (parts s <= slen s)%nat.
Proof. induction s; cbn; lia. Qed.
Lemma insert_some p s : (parts s < slen s)%nat -> exists s', insert p s = Some s'.
Proof.
  induction s as [|h s IH|h q s IH]; cbn; intros H; [lia|eauto|].
  destruct IH as [s' ->]; [lia|]. cbn; eauto.
Qed.
Lemma insert_slen p s s' : insert p s = Some s' -> slen s' = slen s.
Proof.
  revert s'; induction s as [|h s IH|h q s IH]; cbn; intros s' H; [discriminate|now injection H as <-|].
  destruct (insert p s) as [x|]; [|discriminate]. injection H as <-; cbn. now rewrite (IH x eq_refl).
Qed.
Lemma insert_wf p s s' : insert p s = Some s' -> wf_part p -> wf_slots s -> wf_slots s'.
Proof.
  revert s'; induction s as [|h s IH|h q s IH]; cbn; intros s' H W1 W2; [discriminate|now injection H as <-|].
  destruct (insert p s) as [x|]; [|discriminate]. injection H as <-; cbn. split; [tauto|]. apply IH; tauto.
Qed.
Lemma insert_cnt p s s' : insert p s = Some s' -> cnt s' = (cnt_part p + cnt s)%nat.
Proof.
  revert s'; induction s as [|h s IH|h q s IH]; cbn; intros s' H; [discriminate|now injection H as <-|].
  destruct (insert p s) as [x|]; [|discriminate]. injection H as <-; cbn. rewrite (IH x eq_refl); lia.
Qed.
Lemma insert_hashes p s s' : insert p s = Some s' -> hashes s' = hashes s.
Proof.
  revert s'; induction s as [|h s IH|h q s IH]; cbn; intros s' H; [discriminate|now injection H as <-|].
  destruct (insert p s) as [x|]; [|discriminate]. injection H as <-; cbn. now rewrite (IH x eq_refl).
Qed.

(* l' is l with one leaf more *)
Definition ins (id : bytes) (l l' : list (bytes * bytes)) : Prop :=
  exists l1 l2 h0, l = l1 ++ l2 /\ l' = l1 ++ (id, h0) :: l2.
Lemma ins_app_l id a l l' : ins id l l' -> ins id (a ++ l) (a ++ l').
Proof. intros [l1 [l2 [h0 [-> ->]]]]. exists (a ++ l1), l2, h0. now rewrite <- !app_assoc. Qed.
Lemma ins_app_r id b l l' : ins id l l' -> ins id (l ++ b) (l' ++ b).
Proof. intros [l1 [l2 [h0 [-> ->]]]]. exists l1, (l2 ++ b), h0. now rewrite <- !app_assoc. Qed.

Lemma leaves_chain i id h : exists h0, leaves_part h (chain i id) = [(id, h0)].
Proof.
  revert h; induction i as [|i IH]; intros h; cbn [chain leaves_part leaves]; [eauto|].
  destruct (IH zero_hash) as [h0 ->]. cbn. eauto.
Qed.
Lemma wf_chain i id : wf_part (chain i id).
Proof. induction i as [|i IH]; cbn; auto. Qed.
Lemma cnt_chain i id : cnt_part (chain (S i) id) = 1%nat.
Proof. induction i as [|i IH]; [reflexivity|]. cbn [chain cnt_part cnt Nat.eqb] in *. lia. Qed.
Lemma insert_leaves p id s s' :
  (forall h, exists h0, leaves_part h p = [(id, h0)]) ->
  insert p s = Some s' -> ins id (leaves s) (leaves s').
Proof.
  intros Hp; revert s'; induction s as [|h s IH|h q s IH]; cbn; intros s' H; [discriminate| |].
  - injection H as <-; cbn. destruct (Hp h) as [h0 ->]. now exists [], (leaves s), h0.
  - destruct (insert p s) as [x|]; [|discriminate]. injection H as <-; cbn.
    apply ins_app_l, IH; reflexivity.
Qed.

Section MerkleProofs.
Variable sip8 : bytes -> bytes.
Notation compute := (compute sip8).

Fixpoint cons_part (h : bytes) (p : part) : Prop :=
  match p with Leaf _ => True | Node _ s => h = compute s /\ cons s end
with cons (s : slots) : Prop :=
  match s with SNil => True | SEmpty _ s' => cons s' | SFull h p s' => cons_part h p /\ cons s' end.
(* the same, except above leaf id *)
Fixpoint consx_part (id h : bytes) (p : part) : Prop :=
  match p with
  | Leaf _ => True
  | Node _ s => (In id (map fst (leaves s)) \/ h = compute s) /\ consx id s
  end
with consx (id : bytes) (s : slots) : Prop :=
  match s with
  | SNil => True | SEmpty _ s' => consx id s'
  | SFull h p s' => consx_part id h p /\ consx id s'
  end.

Lemma cons_consx id :
  (forall p h, cons_part h p -> consx_part id h p) /\ (forall s, cons s -> consx id s).
Proof. apply part_slots_ind; cbn; intuition. Qed.
Lemma consx_cons id :
  (forall p h, consx_part id h p -> ~ In id (map fst (leaves_part h p)) -> cons_part h p) /\
  (forall s, consx id s -> ~ In id (map fst (leaves s)) -> cons s).
Proof.
  apply part_slots_ind; cbn; intuition.
  - rewrite map_app, in_app_iff in H2. auto.
  - rewrite map_app, in_app_iff in H2. auto.
Qed.

(* --- verify --- *)
Lemma verify_spec id c :
  (forall p h, cons_part h p ->
     verify_part sip8 id c h p = option_map (fun x => (beq c x, true)) (lookup id (leaves_part h p))) /\
  (forall s, cons s ->
     verify_slots sip8 id c s = option_map (fun x => (beq c x, true)) (lookup id (leaves s))).
Proof.
  apply part_slots_ind; cbn; intros.
  - rewrite (beq_sym id0 id). destruct (beq id id0); reflexivity.
  - destruct H0 as [-> H0]. rewrite (H H0). destruct (lookup id (leaves s)); cbn; [|auto].
    now rewrite beq_refl.
  - reflexivity.
  - auto.
  - destruct H1 as [H1 H2]. rewrite H, H0 by auto. rewrite lookup_app.
    destruct (lookup id (leaves_part h p)); reflexivity.
Qed.

(* --- update --- *)
Fixpoint upd (id x : bytes) (l : list (bytes * bytes)) : list (bytes * bytes) :=
  match l with
  | [] => []
  | (k, v) :: l' => (k, if beq k id then x else v) :: upd id x l'
  end.
Lemma upd_fst id x l : map fst (upd id x l) = map fst l.
Proof. induction l as [|[k v] l IH]; cbn; congruence. Qed.
Lemma upd_not_in id x l : ~ In id (map fst l) -> upd id x l = l.
Proof.
  induction l as [|[k v] l IH]; cbn; [auto|]. intros H.
  destruct (beq_spec k id) as [->|]; [tauto|]. rewrite IH; tauto.
Qed.
Lemma upd_app id x a b : upd id x (a ++ b) = upd id x a ++ upd id x b.
Proof. induction a as [|[k v] a IH]; cbn; congruence. Qed.
Lemma upd_lookup id x l k :
  lookup k (upd id x l) = if beq k id then option_map (fun _ => x) (lookup k l) else lookup k l.
Proof.
  induction l as [|[k' v] l IH]; cbn; [now destruct (beq k id)|].
  destruct (beq_spec k k') as [->|N2]; [|exact IH].
  destruct (beq_spec k' id); reflexivity.
Qed.

Lemma update_none id x :
  (forall p h, ~ In id (map fst (leaves_part h p)) -> update_part sip8 id x p = None) /\
  (forall s, ~ In id (map fst (leaves s)) -> update_slots sip8 id x s = None).
Proof.
  apply part_slots_ind; cbn; intros.
  - destruct (beq_spec id0 id) as [->|]; [tauto|reflexivity].
  - now rewrite H.
  - reflexivity.
  - now rewrite H.
  - rewrite map_app, in_app_iff in H1. rewrite (H h), H0; tauto.
Qed.

Lemma nodup_app {A} (a b : list A) : NoDup (a ++ b) ->
  NoDup a /\ NoDup b /\ forall x, In x a -> ~ In x b.
Proof.
  induction a as [|x a IH]; cbn; intros H.
  - repeat split; [constructor|auto|tauto].
  - inversion H as [|? ? H1 H2]; subst. destruct (IH H2) as [A1 [A2 A3]].
    rewrite in_app_iff in H1. repeat split; [constructor; tauto|auto|].
    intros y [->|I]; [tauto|auto].
Qed.

Lemma update_spec id x :
  (forall p h, NoDup (map fst (leaves_part h p)) -> In id (map fst (leaves_part h p)) -> consx_part id h p ->
     exists p' h', update_part sip8 id x p = Some (p', h') /\
       leaves_part h' p' = upd id x (leaves_part h p) /\ cons_part h' p' /\
       cnt_part p' = cnt_part p /\ (wf_part p -> wf_part p')) /\
  (forall s, NoDup (map fst (leaves s)) -> In id (map fst (leaves s)) -> consx id s ->
     exists s', update_slots sip8 id x s = Some s' /\
       leaves s' = upd id x (leaves s) /\ cons s' /\
       cnt s' = cnt s /\ slen s' = slen s /\ (wf_slots s -> wf_slots s')).
Proof.
  apply part_slots_ind; cbn.
  - intros j h _ [->|[]] _. rewrite beq_refl. exists (Leaf id), x. cbn. auto 10.
  - intros c s IH h ND I [_ C]. destruct (IH ND I C) as [s' [-> [L [C' [E1 [E2 W]]]]]].
    exists (Node c s'), (compute s'). cbn. rewrite L, E1, E2. intuition.
  - tauto.
  - intros h s IH ND I C. destruct (IH ND I C) as [s' [-> [L [C' [E1 [E2 W]]]]]].
    cbn. exists (SEmpty h s'). cbn. rewrite L, E1, E2. intuition.
  - intros h p IHp s IHs ND I [Cp Cs].
    rewrite map_app in ND. destruct (nodup_app _ _ ND) as [N1 [N2 N3]].
    rewrite map_app, in_app_iff in I. rewrite upd_app.
    destruct (in_dec bytes_dec id (map fst (leaves_part h p))) as [Ip|Ip].
    + destruct (IHp h N1 Ip Cp) as [p' [h' [-> [L [C' [E1 W]]]]]].
      exists (SFull h' p' s). cbn. rewrite L, E1, (upd_not_in id x (leaves s)) by auto.
      assert (cons s) by (apply (consx_cons id); auto). intuition.
    + destruct I as [I|I]; [contradiction|].
      rewrite (proj1 (update_none id x) p h Ip).
      destruct (IHs N2 I Cs) as [s' [-> [L [C' [E1 [E2 W]]]]]].
      cbn. exists (SFull h p s'). cbn. rewrite L, E1, E2, (upd_not_in id x (leaves_part h p)) by auto.
      assert (cons_part h p) by (apply (consx_cons id); auto). intuition.
Qed.

(* --- remove --- *)
Fixpoint rem (id : bytes) (l : list (bytes * bytes)) : list (bytes * bytes) :=
  match l with
  | [] => []
  | (k, v) :: l' => if beq k id then rem id l' else (k, v) :: rem id l'
  end.
Lemma rem_app id a b : rem id (a ++ b) = rem id a ++ rem id b.
Proof. induction a as [|[k v] a IH]; cbn; [auto|]. destruct (beq k id); cbn; congruence. Qed.
Lemma rem_not_in id l : ~ In id (map fst l) -> rem id l = l.
Proof.
  induction l as [|[k v] l IH]; cbn; [auto|]. intros H.
  destruct (beq_spec k id) as [->|]; [tauto|]. cbn. rewrite IH; tauto.
Qed.
Lemma rem_lookup id l k : lookup k (rem id l) = if beq k id then None else lookup k l.
Proof.
  induction l as [|[k' v] l IH]; cbn; [now destruct (beq k id)|].
  destruct (beq_spec k' id) as [->|N]; cbn.
  - rewrite IH. destruct (beq_spec k id); reflexivity.
  - destruct (beq_spec k k') as [->|N2].
    + destruct (beq_spec k' id); [contradiction|reflexivity].
    + exact IH.
Qed.
Lemma rem_in id l k : In k (map fst (rem id l)) -> In k (map fst l).
Proof. induction l as [|[k' v] l IH]; cbn; [auto|]. destruct (beq k' id); cbn; tauto. Qed.
Lemma rem_nodup id l : NoDup (map fst l) -> NoDup (map fst (rem id l)).
Proof.
  induction l as [|[k v] l IH]; cbn; [auto|]. intros H. inversion H; subst.
  destruct (beq k id); cbn; [auto|]. constructor; [|auto]. intros I; now apply rem_in in I.
Qed.
Lemma parts0 s : parts s = 0%nat -> leaves s = [] /\ cnt s = 0%nat.
Proof. induction s; cbn; intros H; auto; discriminate. Qed.

Lemma remove_none id :
  (forall p h, ~ In id (map fst (leaves_part h p)) -> remove_part sip8 id p = None) /\
  (forall s, ~ In id (map fst (leaves s)) -> remove_slots sip8 id s = None).
Proof.
  apply part_slots_ind; cbn; intros.
  - destruct (beq_spec id0 id) as [->|]; [tauto|reflexivity].
  - now rewrite H.
  - reflexivity.
  - now rewrite H.
  - rewrite map_app, in_app_iff in H1. rewrite (H h), H0; tauto.
Qed.

Lemma remove_spec id :
  (forall p h, NoDup (map fst (leaves_part h p)) -> In id (map fst (leaves_part h p)) -> cons_part h p ->
     (remove_part sip8 id p = Some None /\ rem id (leaves_part h p) = [] /\ cnt_part p = 0%nat) \/
     exists p' h', remove_part sip8 id p = Some (Some (p', h')) /\
       leaves_part h' p' = rem id (leaves_part h p) /\ cons_part h' p' /\
       cnt_part p' = cnt_part p /\ (wf_part p -> wf_part p')) /\
  (forall s, NoDup (map fst (leaves s)) -> In id (map fst (leaves s)) -> cons s ->
     exists s', remove_slots sip8 id s = Some s' /\
       leaves s' = rem id (leaves s) /\ cons s' /\
       cnt s' = cnt s /\ slen s' = slen s /\ (wf_slots s -> wf_slots s')).
Proof.
  apply part_slots_ind; cbn.
  - intros j h _ [->|[]] _. rewrite beq_refl. left. auto.
  - intros c s IH h ND I [_ C]. destruct (IH ND I C) as [s' [-> [L [C' [E1 [E2 W]]]]]].
    destruct (Nat.eqb (parts s') 0 && negb c)%bool eqn:D.
    + left. apply andb_true_iff in D as [D1 D2]. apply Nat.eqb_eq in D1.
      apply parts0 in D1 as [D1 D3]. destruct c; [discriminate|].
      rewrite <- L, <- E1. auto.
    + right. exists (Node c s'), (compute s'). cbn. rewrite L, E1, E2. intuition.
  - tauto.
  - intros h s IH ND I C. destruct (IH ND I C) as [s' [-> [L [C' [E1 [E2 W]]]]]].
    cbn. exists (SEmpty h s'). cbn. rewrite L, E1, E2. intuition.
  - intros h p IHp s IHs ND I [Cp Cs].
    rewrite map_app in ND. destruct (nodup_app _ _ ND) as [N1 [N2 N3]].
    rewrite map_app, in_app_iff in I. rewrite rem_app.
    destruct (in_dec bytes_dec id (map fst (leaves_part h p))) as [Ip|Ip].
    + rewrite (rem_not_in id (leaves s)) by auto.
      destruct (IHp h N1 Ip Cp) as [[-> [L K]] | [p' [h' [-> [L [C' [E1 W]]]]]]].
      * exists (SEmpty zero_hash s). cbn. rewrite L, K. intuition.
      * exists (SFull h' p' s). cbn. rewrite L, E1. intuition.
    + destruct I as [I|I]; [contradiction|].
      rewrite (proj1 (remove_none id) p h Ip), (rem_not_in id (leaves_part h p)) by auto.
      destruct (IHs N2 I Cs) as [s' [-> [L [C' [E1 [E2 W]]]]]].
      cbn. exists (SFull h p s'). cbn. rewrite L, E1, E2. intuition.
Qed.

(* --- growing --- *)
Lemma consx_chain i id h : consx_part id h (chain i id).
Proof.
  revert h; induction i as [|i IH]; intros h; [cbn; auto|].
  cbn [chain consx_part consx leaves]. destruct (leaves_chain i id zero_hash) as [h0 E]. rewrite E. cbn. auto 10.
Qed.
Lemma insert_consx p id s s' :
  (forall h, consx_part id h p) -> insert p s = Some s' -> cons s -> consx id s'.
Proof.
  intros Hp; revert s'; induction s as [|h s IH|h q s IH]; cbn; intros s' H C; [discriminate| |].
  - injection H as <-; cbn. split; [apply Hp|now apply cons_consx].
  - destruct (insert p s) as [x|]; [|discriminate]. injection H as <-; cbn.
    destruct C. split; [now apply cons_consx|]. now apply IH.
Qed.
Lemma ins_in id l l' : ins id l l' -> In id (map fst l').
Proof. intros [l1 [l2 [h0 [_ ->]]]]. rewrite map_app, in_app_iff. cbn; auto. Qed.

Lemma grow_none id :
  (forall p, cnt_part p = 0%nat -> grow_part id p = NotHere) /\
  (forall s, cnt s = 0%nat -> grow_slots id s = NotHere).
Proof.
  apply part_slots_ind; cbn; intros.
  - reflexivity.
  - destruct curr; [discriminate|]. now rewrite H.
  - reflexivity.
  - now rewrite H.
  - rewrite H, H0 by lia. reflexivity.
Qed.

Lemma grow_spec id :
  (forall p h, wf_part p -> cnt_part p = 1%nat -> cons_part h p ->
     match grow_part id p with
     | NeedSpace i x => (exists j, i = S j) /\ wf_part x /\ cnt_part x = 0%nat /\
         leaves_part h x = leaves_part h p /\ cons_part h x /\ exists d r, x = Node d r
     | Grown x => wf_part x /\ cnt_part x = 1%nat /\ ins id (leaves_part h p) (leaves_part h x) /\
         consx_part id h x /\ exists d r, x = Node d r
     | _ => False
     end) /\
  (forall s, wf_slots s -> cnt s = 1%nat -> cons s ->
     match grow_slots id s with
     | NeedSpace i x => (exists j, i = S j) /\ wf_slots x /\ cnt x = 0%nat /\ slen x = slen s /\
         leaves x = leaves s /\ cons x /\ hashes x = hashes s
     | Grown x => wf_slots x /\ cnt x = 1%nat /\ slen x = slen s /\ ins id (leaves s) (leaves x) /\
         consx id x
     | _ => False
     end).
Proof.
  apply part_slots_ind.
  - cbn; intros; discriminate.
  - intros c s IH h W K C. cbn in W, K, C. destruct W as [W1 W2], C as [-> C].
    cbn [grow_part]. destruct c.
    + destruct (full s) eqn:F.
      * cbn. split; [eauto|]. split; [auto|]. split; [lia|]. eauto 10.
      * unfold gput. destruct (insert_some (Leaf id) s) as [s' E].
        { unfold full in F. apply Nat.eqb_neq in F. pose proof (parts_slen s). lia. }
        rewrite E. cbn. rewrite (insert_slen _ _ _ E), (insert_cnt _ _ _ E).
        assert (I : ins id (leaves s) (leaves s')) by (eapply insert_leaves; [|exact E]; cbn; eauto).
        split; [split; [auto|]; eapply insert_wf; eauto; cbn; auto|].
        split; [cbn; lia|].
        split; [exact I|]. split; [|eauto]. split; [left; eapply ins_in; eauto|].
        eapply insert_consx; [|exact E|auto]. cbn; auto.
    + specialize (IH W2 ltac:(cbn in K; lia) C). destruct (grow_slots id s) as [|i x|x|]; try contradiction.
      * destruct IH as [[j ->] [X1 [X2 [X3 [X4 [X5 X6]]]]]].
        destruct (full x) eqn:F.
        -- cbn. split; [eauto|]. rewrite X3, X2, X4. unfold Merkle.compute. rewrite X6. eauto 12.
        -- unfold gput. destruct (insert_some (chain (S j) id) x) as [s' E].
           { unfold full in F. apply Nat.eqb_neq in F. pose proof (parts_slen x). lia. }
           rewrite E. cbn [wf_part cnt_part leaves_part consx_part].
           rewrite (insert_slen _ _ _ E), (insert_cnt _ _ _ E), cnt_chain, X2, X3.
           assert (I : ins id (leaves x) (leaves s')).
           { eapply insert_leaves; [|exact E]. intros h'; apply leaves_chain. }
           split; [split; [auto|]; eapply insert_wf; eauto; apply wf_chain|].
           split; [reflexivity|]. rewrite <- X4. split; [exact I|]. split; [|eauto].
           split; [left; eapply ins_in; eauto|].
           eapply insert_consx; [|exact E|auto]. intros h'; apply consx_chain.
      * destruct IH as [X1 [X2 [X3 [X4 X5]]]]. cbn. rewrite X3, X2.
        split; [auto|]. split; [auto|]. split; [auto|]. split; [|eauto].
        split; [left; eapply ins_in; eauto|auto].
  - cbn; intros; discriminate.
  - intros h s IH W K C. cbn in W, K, C |- *. specialize (IH W K C).
    destruct (grow_slots id s) as [|i x|x|]; try contradiction; cbn.
    + destruct IH as [X1 [X2 [X3 [X4 [X5 [X6 X7]]]]]]. rewrite X4, X7. auto 10.
    + destruct IH as [X1 [X2 [X3 [X4 X5]]]]. rewrite X3. auto 10.
  - intros h p IHp s IHs W K C. cbn in W, K, C |- *. destruct W as [Wp Ws], C as [Cp Cs].
    destruct (Nat.eq_dec (cnt_part p) 1) as [Kp|Kp].
    + specialize (IHp h Wp Kp Cp). destruct (grow_part id p) as [|i x|x|]; try contradiction; cbn.
      * destruct IHp as [X1 [X2 [X3 [X4 [X5 _]]]]]. rewrite X4. assert (cnt s = 0%nat) by lia.
        split; [auto|]. split; [auto|]. split; [lia|]. auto.
      * destruct IHp as [X1 [X2 [X3 [X4 _]]]]. split; [auto|]. split; [lia|].
        split; [auto|]. split; [now apply ins_app_r|]. split; [auto|now apply cons_consx].
    + assert (Kp0 : cnt_part p = 0%nat) by lia. rewrite (proj1 (grow_none id) p Kp0).
      specialize (IHs Ws ltac:(lia) Cs).
      destruct (grow_slots id s) as [|i x|x|]; try contradiction; cbn.
      * destruct IHs as [X1 [X2 [X3 [X4 [X5 [X6 X7]]]]]]. rewrite X4, X5, X7.
        split; [auto|]. split; [auto|]. split; [lia|]. auto.
      * destruct IHs as [X1 [X2 [X3 [X4 X5]]]]. rewrite X3. split; [auto|]. split; [lia|].
        split; [auto|]. split; [now apply ins_app_l|]. split; [now apply cons_consx|auto].
Qed.

(* --- trees --- *)
Record tree_ok (t : tree) : Prop := {
  ok_len : slen (root t) = NODE_SIZE;
  ok_wf : wf_slots (root t);
  ok_curr : ((if rootcurr t then 1 else 0) + cnt (root t) = 1)%nat;
  ok_cons : cons (root t);
  ok_root : roothash t = compute (root t);
  ok_nodup : NoDup (map fst (leaves (root t)))
}.

Lemma empty_ok : tree_ok (empty_tree sip8).
Proof. constructor; cbn; auto. constructor. Qed.

Lemma update_ok id x t : tree_ok t -> In id (map fst (leaves (root t))) ->
  exists t', update sip8 id x t = Ret t' /\ tree_ok t' /\ leaves (root t') = upd id x (leaves (root t)).
Proof.
  intros [H1 H2 H3 H4 H5 H6] I.
  destruct (proj2 (update_spec id x) _ H6 I (proj2 (cons_consx id) _ H4)) as [s' [E [L [C [E1 [E2 W]]]]]].
  unfold update. rewrite E. eexists; split; [reflexivity|]. split; [|exact L].
  constructor; cbn; auto; [congruence|congruence|]. now rewrite L, upd_fst.
Qed.
Lemma remove_ok id t : tree_ok t -> In id (map fst (leaves (root t))) ->
  exists t', remove sip8 id t = Ret t' /\ tree_ok t' /\ leaves (root t') = rem id (leaves (root t)).
Proof.
  intros [H1 H2 H3 H4 H5 H6] I.
  destruct (proj2 (remove_spec id) _ H6 I H4) as [s' [E [L [C [E1 [E2 W]]]]]].
  unfold remove. rewrite E. eexists; split; [reflexivity|]. split; [|exact L].
  constructor; cbn; auto; [congruence|congruence|]. rewrite L. now apply rem_nodup.
Qed.
Lemma ins_nodup id l l' : ins id l l' -> NoDup (map fst l) -> ~ In id (map fst l) -> NoDup (map fst l').
Proof.
  intros [l1 [l2 [h0 [-> ->]]]] ND NI. rewrite map_app in *. cbn.
  apply (Permutation_NoDup (l := id :: map fst l1 ++ map fst l2)).
  - apply Permutation_middle.
  - constructor; auto.
Qed.
Lemma ins_upd_lookup id x l l' k : ins id l l' ->
  lookup k (upd id x l') = if beq k id then Some x else lookup k l.
Proof.
  intros I. rewrite upd_lookup. destruct (beq_spec k id) as [->|N].
  - destruct (lookup_in id l' (ins_in _ _ _ I)) as [v ->]. reflexivity.
  - destruct I as [l1 [l2 [h0 [-> ->]]]]. rewrite !lookup_app. cbn.
    destruct (beq_spec k id); [contradiction|]. reflexivity.
Qed.

Lemma new_leaf_ok id t : tree_ok t -> ~ In id (map fst (leaves (root t))) ->
  exists t', new_leaf id t = Ret t' /\ slen (root t') = NODE_SIZE /\ wf_slots (root t') /\
    ((if rootcurr t' then 1 else 0) + cnt (root t') = 1)%nat /\ consx id (root t') /\
    NoDup (map fst (leaves (root t'))) /\ ins id (leaves (root t)) (leaves (root t')).
Proof.
  intros [H1 H2 H3 H4 H5 H6] I. unfold new_leaf.
  pose proof (proj1 (grow_spec id) (Node (rootcurr t) (root t)) (roothash t)) as G.
  cbn [wf_part cnt_part cons_part leaves_part] in G.
  specialize (G (conj H1 H2) H3 (conj H5 H4)).
  destruct (grow_part id (Node (rootcurr t) (root t))) as [|i x|x|]; try contradiction.
  - destruct G as [[j ->] [X1 [X2 [X3 [X4 [d [r ->]]]]]]].
    change (insert (Node d r) fresh_slots) with (Some (SFull zero_hash (Node d r)
          (SEmpty zero_hash (SEmpty zero_hash (SEmpty zero_hash (SEmpty zero_hash SNil)))))).
    cbv iota beta.
    assert (L : exists s, insert (chain (S j) id)
        (SFull (roothash t) (Node d r)
          (SEmpty zero_hash (SEmpty zero_hash (SEmpty zero_hash (SEmpty zero_hash SNil))))) = Some s)
      by (eexists; reflexivity).
    destruct L as [s E]. rewrite E. eexists; split; [reflexivity|]. cbn [root rootcurr].
    assert (IN : ins id (leaves (root t)) (leaves s)).
    { pose proof (insert_leaves _ id _ _ (leaves_chain (S j) id) E) as IN.
      cbn in X3. cbn [leaves leaves_part] in IN. rewrite X3, app_nil_r in IN. exact IN. }
    split; [exact (insert_slen _ _ _ E)|].
    split; [apply (insert_wf _ _ _ E (wf_chain _ _)); cbn in *; tauto|].
    split; [rewrite (insert_cnt _ _ _ E), cnt_chain; cbn in *; lia|].
    split; [eapply insert_consx; [|exact E|]; [intros; apply consx_chain|cbn in *; tauto]|].
    split; [eapply ins_nodup; eauto|exact IN].
  - destruct G as [X1 [X2 [X3 [X4 [d [r ->]]]]]]. eexists; split; [reflexivity|].
    cbn in *. split; [tauto|]. split; [tauto|]. split; [auto|]. split; [tauto|].
    split; [eapply ins_nodup; eauto|exact X3].
Qed.

Lemma add_ok id x t : tree_ok t -> ~ In id (map fst (leaves (root t))) ->
  exists t', add sip8 id x t = Ret t' /\ tree_ok t' /\
    forall k, lookup k (leaves (root t')) = if beq k id then Some x else lookup k (leaves (root t)).
Proof.
  intros H I. destruct (new_leaf_ok id t H I) as [t1 [E [A1 [A2 [A3 [A4 [A5 A6]]]]]]].
  unfold add. rewrite E. unfold update.
  destruct (proj2 (update_spec id x) _ A5 (ins_in _ _ _ A6) A4) as [s' [E' [L [C [E1 [E2 W]]]]]].
  rewrite E'. eexists; split; [reflexivity|]. split.
  - constructor; cbn; auto; [congruence|congruence|]. now rewrite L, upd_fst.
  - intros k. cbn. rewrite L. now apply ins_upd_lookup.
Qed.

Lemma verify_ok id c t : tree_ok t ->
  verify sip8 id c t =
  match lookup id (leaves (root t)) with
  | None => Crash
  | Some x => Ret (if beq c x then V_OK else V_VerifyLeaf)
  end.
Proof.
  intros [H1 H2 H3 H4 H5 H6]. unfold verify. rewrite (proj2 (verify_spec id c) _ H4).
  destruct (lookup id (leaves (root t))) as [x|]; cbn; [|reflexivity].
  destruct (beq c x); [|reflexivity]. now rewrite H5, beq_refl.
Qed.

(* A tree holding exactly the hashes m gives *)
Definition holds (t : tree) (m : bytes -> option bytes) : Prop :=
  tree_ok t /\ forall k, lookup k (leaves (root t)) = m k.

Lemma mstep_ok t o m : holds t m ->
  match o with
  | MAdd id _ => m id = None
  | MUpdate id _ | MRemove id => m id <> None
  end ->
  exists t', mstep sip8 t o = Ret t' /\ holds t' (fun k => effect k (m k) o).
Proof.
  intros [H L] U.
  assert (PRE : forall id, m id <> None -> In id (map fst (leaves (root t)))).
  { intros id NE. rewrite <- L in NE. destruct (lookup id (leaves (root t))) eqn:E; [|congruence].
    eapply lookup_some_in; eauto. }
  assert (ABS : forall id, m id = None -> ~ In id (map fst (leaves (root t)))).
  { intros id E I. apply lookup_in in I as [v I]. rewrite L in I. congruence. }
  destruct o as [id x|id x|id]; cbn [mstep effect].
  - destruct (add_ok id x t H (ABS _ U)) as [t' [-> [K1 K2]]]. eexists; split; [reflexivity|].
    split; [auto|]. intros k. rewrite K2, L. now rewrite (beq_sym id k).
  - destruct (update_ok id x t H (PRE _ U)) as [t' [-> [K1 K2]]]. eexists; split; [reflexivity|].
    split; [auto|]. intros k. rewrite K2, upd_lookup, (beq_sym id k), L.
    destruct (beq_spec k id) as [->|]; [|reflexivity]. destruct (m id); [reflexivity|congruence].
  - destruct (remove_ok id t H (PRE _ U)) as [t' [-> [K1 K2]]]. eexists; split; [reflexivity|].
    split; [auto|]. intros k. rewrite K2, rem_lookup, L, (beq_sym id k). reflexivity.
Qed.

Lemma current_snoc id h o : current id (h ++ [o]) = effect id (current id h) o.
Proof. unfold current. now rewrite fold_left_app. Qed.
Lemma mrun_snoc t h o t' : mrun sip8 t h = Ret t' -> mrun sip8 t (h ++ [o]) = mstep sip8 t' o.
Proof.
  revert t; induction h as [|o' h IH]; cbn; intros t H.
  - injection H as ->. destruct (mstep sip8 t' o); reflexivity.
  - destruct (mstep sip8 t o') as [t1|]; [|discriminate]. auto.
Qed.
Lemma mrun_holds h : well_used h ->
  exists t, mrun sip8 (empty_tree sip8) h = Ret t /\ holds t (fun k => current k h).
Proof.
  induction h as [|o h IH] using rev_ind; intros U.
  - eexists; split; [reflexivity|]. split; [apply empty_ok|reflexivity].
  - destruct IH as [t [E Hh]].
    { intros h1 o1 h2 E. apply (U h1 o1 (h2 ++ [o])). rewrite E, <- app_assoc. reflexivity. }
    rewrite (mrun_snoc _ _ _ _ E).
    destruct (mstep_ok t o _ Hh (U h o [] eq_refl)) as [t' [-> [K1 K2]]].
    eexists; split; [reflexivity|]. split; [auto|].
    intros k. now rewrite K2, current_snoc.
Qed.

Theorem completeness h : well_used h ->
  exists t, mrun sip8 (empty_tree sip8) h = Ret t /\
    forall id c, verify sip8 id c t =
      match current id h with
      | None => Crash
      | Some x => Ret (if beq c x then V_OK else V_VerifyLeaf)
      end.
Proof.
  intros U. destruct (mrun_holds h U) as [t [E [H L]]]. exists t; split; [exact E|].
  intros id c. rewrite (verify_ok _ _ _ H), L. reflexivity.
Qed.
End MerkleProofs.
