(* C109: of the secrets of backups, memory holds those that there are now, and none
   that were removed or replaced. *)
From Verif Require Import Base Zeroing.
Open Scope nat_scope.

(* Specification: the secret that is stored for a user after a history. *)
Fixpoint current (h : list op) (id : N) : option bytes :=
  match h with
  | [] => None
  | Store i b _ :: r | Load i b _ _ :: r => if N.eqb id i then Some b else current r id
  | Remove i :: r => if N.eqb id i then None else current r id
  end.
(* Any byte in a slot that is not zero is a byte of a secret there is now. *)
Definition nothing_left (k : rowkind) (h : list op) (m : memory) : Prop :=
  forall l o, o < size k -> m l o <> 0%N -> exists id b, current h id = Some b /\ nth o b 0%N = m l o.
Definition is_load (o : op) : bool := match o with Load _ _ _ _ => true | _ => false end.

Lemma mem_zero_at n : forall m l d s o, mem_zero m l d n s o = if Nat.eqb s l && Nat.leb d o && Nat.ltb o (d + n) then 0%N else m s o.
Proof.
  induction n as [|n IH]; intros m l d s o; cbn [mem_zero].
  - destruct (Nat.eqb s l), (Nat.leb_spec d o), (Nat.ltb_spec o (d + 0)); cbn [andb]; try reflexivity; lia.
  - rewrite IH. unfold poke. destruct (Nat.eqb_spec s l); cbn [andb]; [|reflexivity].
    destruct (Nat.leb_spec (d + 1) o), (Nat.ltb_spec o (d + 1 + n)), (Nat.leb_spec d o), (Nat.ltb_spec o (d + S n)), (Nat.eqb_spec o d); cbn [andb]; try reflexivity; lia.
Qed.
Lemma copy_in_at b : forall m l d s o, copy_in m l d b s o = if Nat.eqb s l && Nat.leb d o && Nat.ltb o (d + length b) then nth (o - d) b 0%N else m s o.
Proof.
  induction b as [|x b IH]; intros m l d s o; cbn [copy_in length].
  - destruct (Nat.eqb s l), (Nat.leb_spec d o), (Nat.ltb_spec o (d + 0)); cbn [andb]; try reflexivity; lia.
  - rewrite IH. unfold poke. destruct (Nat.eqb_spec s l); cbn [andb]; [|reflexivity].
    destruct (Nat.leb_spec (d + 1) o), (Nat.ltb_spec o (d + 1 + length b)), (Nat.leb_spec d o), (Nat.ltb_spec o (d + S (length b))), (Nat.eqb_spec o d); cbn [andb]; try reflexivity; try lia.
    + replace (o - d) with (S (o - (d + 1))) by lia. reflexivity.
    + replace (o - d) with 0 by lia. reflexivity.
Qed.
Lemma copy_slot_at m a b n s o : copy_slot m a b n s o = if Nat.eqb s b && Nat.ltb o n then m a o else m s o.
Proof.
  unfold copy_slot. rewrite copy_in_at, map_length, seq_length. cbn [Nat.leb Nat.add]. rewrite andb_true_r, Nat.sub_0_r.
  destruct (Nat.eqb_spec s b), (Nat.ltb_spec o n); cbn [andb]; try reflexivity.
  rewrite nth_indep with (d' := m a 0) by (rewrite map_length, seq_length; lia). rewrite map_nth, seq_nth by lia. reflexivity.
Qed.

(* Where each row is, and that all else is clear. *)
Record inv (k : rowkind) (h : list op) (s : state) : Prop := {
  inv_inj : forall a b l, rows s a = Some l -> rows s b = Some l -> a = b;
  inv_row : forall id l, rows s id = Some l -> exists b, current h id = Some b /\ forall o, o < size k -> mem s l o = nth o b 0%N;
  inv_free : forall l, free s l -> forall o, o < size k -> mem s l o = 0%N;
  inv_none : forall id, rows s id = None -> current h id = None }.

Lemma inv_init k : inv k [] init.
Proof. split; cbn; try discriminate; reflexivity. Qed.

Definition mentioned (h : list op) : list N := map (fun o => match o with Store i _ _ => i | Remove i => i | Load i _ _ _ => i end) h.
Lemma current_mentioned h id b : current h id = Some b -> In id (mentioned h).
Proof.
  induction h as [|o h IH]; [discriminate|]. destruct o as [i x l|i|i x t l]; cbn [current mentioned map];
    (destruct (N.eqb_spec id i); [intros _; left; congruence|intros H; right; apply IH; exact H]).
Qed.
Lemma free_dec k h s l : inv k h s -> (exists id, rows s id = Some l) \/ free s l.
Proof.
  intros I. destruct (existsb (fun id => match rows s id with Some x => Nat.eqb x l | None => false end) (mentioned h)) eqn:E.
  - left. apply existsb_exists in E as (id & _ & H). exists id. destruct (rows s id) as [x|]; [|discriminate].
    apply Nat.eqb_eq in H. congruence.
  - right. intros id H. destruct (inv_row _ _ _ I _ _ H) as (b & C & _). apply current_mentioned in C.
    assert (T : existsb (fun id => match rows s id with Some x => Nat.eqb x l | None => false end) (mentioned h) = true).
    { apply existsb_exists. exists id. split; [exact C|]. rewrite H. apply Nat.eqb_refl. }
    congruence.
Qed.

(* A row whose slot is written in full, or cleared first, holds the secret. *)
Lemma inv_store k h s id b l : inv k h s -> fits k b -> free s l -> inv k (Store id b l :: h) (store k s id b l).
Proof.
  intros I F FR. unfold store. set (a := match rows s id with Some x => x | None => l end).
  assert (A : forall i, i <> id -> rows s i <> Some a).
  { intros i N H. subst a. destruct (rows s id) as [x|] eqn:E; [apply N; exact (inv_inj _ _ _ I _ _ _ H E)|exact (FR i H)]. }
  assert (K : forall x, rows s id = Some x -> x = a) by (intros x H; subst a; rewrite H; reflexivity).
  assert (M : forall x o, o < size k -> copy_in (if update_clears k then mem_zero (mem s) a 0 (size k) else mem s) a 0 b x o =
                          if Nat.eqb x a then nth o b 0%N else mem s x o).
  { intros x o O. rewrite copy_in_at. cbn [Nat.leb Nat.add]. rewrite andb_true_r, Nat.sub_0_r. unfold fits in F.
    destruct (Nat.eqb_spec x a); cbn [andb].
    - destruct (Nat.ltb_spec o (length b)); [reflexivity|]. destruct (update_clears k); [|lia].
      rewrite mem_zero_at. subst x. rewrite Nat.eqb_refl. cbn [andb Nat.leb Nat.add]. destruct (Nat.ltb_spec o (size k)); [|lia].
      rewrite nth_overflow by lia. reflexivity.
    - destruct (update_clears k); [|reflexivity]. rewrite mem_zero_at. destruct (Nat.eqb_spec x a); [contradiction|]. reflexivity. }
  clearbody a. split; cbn [rows mem]; unfold set_row.
  - intros i j x. destruct (N.eqb_spec i id), (N.eqb_spec j id); intros H1 H2; subst; try reflexivity.
    + injection H1 as <-. exfalso. exact (A j n H2).
    + injection H2 as <-. exfalso. exact (A i n H1).
    + exact (inv_inj _ _ _ I _ _ _ H1 H2).
  - intros i x. cbn [current]. destruct (N.eqb_spec i id); intros H.
    + injection H as <-. exists b. split; [reflexivity|]. intros o O. rewrite M, Nat.eqb_refl by exact O. reflexivity.
    + destruct (inv_row _ _ _ I _ _ H) as (c & C & V). exists c. split; [exact C|]. intros o O. rewrite M by exact O.
      destruct (Nat.eqb_spec x a); [subst x; exfalso; exact (A i n H)|]. apply V; exact O.
  - intros x FX o O. rewrite M by exact O. destruct (Nat.eqb_spec x a).
    + exfalso. apply (FX id). cbn [rows]. unfold set_row. rewrite N.eqb_refl. congruence.
    + destruct (free_dec k h s x I) as [[i H]|FS]; [|apply (inv_free _ _ _ I x FS o O)]. exfalso.
      apply (FX i). cbn [rows]. unfold set_row. destruct (N.eqb_spec i id); [|exact H]. exfalso. subst i.
      (* the row was there, so that is where it was written *)
      apply n. apply K. exact H.
  - intros i. cbn [current]. destruct (N.eqb_spec i id); [discriminate|]. apply (inv_none _ _ _ I).
Qed.

Lemma inv_remove k h s id : inv k h s -> (erase_clears k || dtor_clears k = true)%bool -> inv k (Remove id :: h) (remove k s id).
Proof.
  intros I C. unfold remove. destruct (rows s id) as [a|] eqn:E.
  2: { destruct I as [I1 I2 I3 I4]. split; [exact I1| |exact I3|].
    - intros i l H. cbn [current]. destruct (N.eqb_spec i id); [subst i; congruence|]. apply I2; exact H.
    - intros i H. cbn [current]. destruct (N.eqb_spec i id); [reflexivity|]. apply I4; exact H. }
  assert (M : forall x o, o < size k ->
    destroy k (if erase_clears k then mem_zero (mem s) a 0 (size k) else mem s) a x o = if Nat.eqb x a then 0%N else mem s x o).
  { intros x o O. unfold destroy. destruct (dtor_clears k), (erase_clears k); try discriminate; rewrite ?mem_zero_at; cbn [Nat.leb Nat.add];
      rewrite ?andb_true_r; destruct (Nat.eqb_spec x a), (Nat.ltb_spec o (size k)); cbn [andb]; try reflexivity; lia. }
  split; cbn [rows mem]; unfold set_row.
  - intros i j x. destruct (N.eqb_spec i id), (N.eqb_spec j id); intros H1 H2; try discriminate. exact (inv_inj _ _ _ I _ _ _ H1 H2).
  - intros i x. cbn [current]. destruct (N.eqb_spec i id); intros H; [discriminate|].
    destruct (inv_row _ _ _ I _ _ H) as (c & CC & V). exists c. split; [exact CC|]. intros o O. rewrite M by exact O.
    destruct (Nat.eqb_spec x a); [subst x; exfalso; apply n; exact (inv_inj _ _ _ I _ _ _ H E)|]. apply V; exact O.
  - intros x FX o O. rewrite M by exact O. destruct (Nat.eqb_spec x a); [reflexivity|].
    apply (inv_free _ _ _ I); [|exact O]. intros i H. apply (FX i). cbn [rows]. unfold set_row.
    destruct (N.eqb_spec i id); [subst i; congruence|exact H].
  - intros i. cbn [current]. destruct (N.eqb_spec i id); [reflexivity|]. apply (inv_none _ _ _ I).
Qed.

Lemma inv_load k h s id b t l : inv k h s -> (move_clears k || dtor_clears k = true)%bool ->
  fits k b -> free s t -> free s l -> t <> l -> rows s id = None -> inv k (Load id b t l :: h) (load k s id b t l).
Proof.
  intros I C F FT FL TL RN. unfold load.
  assert (M : forall x o, o < size k ->
    mem (load k s id b t l) x o = if Nat.eqb x t then 0%N else if Nat.eqb x l then nth o b 0%N else mem s x o).
  { intros x o O. unfold load. cbn [mem]. unfold destroy.
    assert (M2 : copy_slot (copy_in (mem s) t 0 b) t l (size k) x o =
                 if Nat.eqb x t then nth o b 0%N else if Nat.eqb x l then nth o b 0%N else mem s x o).
    { assert (T : forall y, copy_in (mem s) t 0 b y o = if Nat.eqb y t then nth o b 0%N else mem s y o).
      { intros y. rewrite copy_in_at. cbn [Nat.leb Nat.add]. rewrite andb_true_r, Nat.sub_0_r. destruct (Nat.eqb_spec y t); cbn [andb]; [|reflexivity].
        destruct (Nat.ltb_spec o (length b)); [reflexivity|]. rewrite nth_overflow by lia. subst y. apply (inv_free _ _ _ I t FT o O). }
      rewrite copy_slot_at, !T, Nat.eqb_refl. destruct (Nat.eqb_spec x l), (Nat.ltb_spec o (size k)), (Nat.eqb_spec x t); cbn [andb]; try reflexivity; lia. }
    destruct (dtor_clears k), (move_clears k); try discriminate; rewrite ?mem_zero_at; cbn [Nat.leb Nat.add]; rewrite ?andb_true_r, ?M2;
      destruct (Nat.eqb_spec x t), (Nat.ltb_spec o (size k)); cbn [andb]; try reflexivity; lia. }
  unfold load in M. cbn [mem] in M. split; cbn [rows mem]; unfold set_row.
  - intros i j x. destruct (N.eqb_spec i id), (N.eqb_spec j id); intros H1 H2; subst; try reflexivity.
    + injection H1 as <-. exfalso. exact (FL j H2).
    + injection H2 as <-. exfalso. exact (FL i H1).
    + exact (inv_inj _ _ _ I _ _ _ H1 H2).
  - intros i x. cbn [current]. destruct (N.eqb_spec i id); intros H.
    + injection H as <-. exists b. split; [reflexivity|]. intros o O. rewrite M by exact O. destruct (Nat.eqb_spec l t); [congruence|].
      rewrite Nat.eqb_refl. reflexivity.
    + destruct (inv_row _ _ _ I _ _ H) as (c & CC & V). exists c. split; [exact CC|]. intros o O. rewrite M by exact O.
      destruct (Nat.eqb_spec x t); [subst x; exfalso; exact (FT i H)|]. destruct (Nat.eqb_spec x l); [subst x; exfalso; exact (FL i H)|]. apply V; exact O.
  - intros x FX o O. rewrite M by exact O. destruct (Nat.eqb_spec x t); [reflexivity|]. destruct (Nat.eqb_spec x l).
    + exfalso. apply (FX id). cbn [rows]. unfold set_row. rewrite N.eqb_refl. congruence.
    + apply (inv_free _ _ _ I); [|exact O]. intros i H. apply (FX i). cbn [rows]. unfold set_row.
      destruct (N.eqb_spec i id); [subst i; congruence|exact H].
  - intros i. cbn [current]. destruct (N.eqb_spec i id); [discriminate|]. apply (inv_none _ _ _ I).
Qed.

Lemma reach_inv k h s : (erase_clears k || dtor_clears k = true)%bool ->
  (dtor_clears k = true \/ existsb is_load h = false) -> reach k h s -> inv k h s.
Proof.
  intros E D R. induction R as [|h s o R IH A]; [apply inv_init|].
  assert (I : inv k h s).
  { apply IH. destruct D as [D|D]; [left; exact D|right]. cbn [existsb] in D. apply orb_false_iff in D. apply D. }
  destruct o as [i b l|i|i b t l]; cbn [step allowed] in *.
  - apply inv_store; [exact I|apply A|apply A].
  - apply inv_remove; [exact I|exact E].
  - destruct A as (F & FT & FL & TL & RN). destruct D as [D|D]; [|discriminate D].
    apply inv_load; try assumption. rewrite D. apply orb_true_r.
Qed.
Lemma inv_nothing_left k h s : inv k h s -> nothing_left k h (mem s).
Proof.
  intros I l o O NZ. destruct (free_dec k h s l I) as [[id H]|F]; [|rewrite (inv_free _ _ _ I l F o O) in NZ; contradiction].
  destruct (inv_row _ _ _ I _ _ H) as (b & C & V). exists id, b. split; [exact C|]. symmetry. apply V; exact O.
Qed.

(* SVR3's successors clear what they remove, replace and move, for every history. *)
Theorem C109_db4_and_db5_leave_nothing_partial k h s :
  k = db4_row \/ k = db4_rotate_row \/ k = db5_row -> reach k h s -> nothing_left k h (mem s).
Proof.
  intros K R. apply inv_nothing_left. destruct K as [-> | [-> | ->]]; (apply reach_inv; [reflexivity|left; reflexivity|exact R]).
Qed.
(* And each user's secret is where its row is. *)
Theorem C109_secrets_are_kept k h s id b :
  k = db4_row \/ k = db4_rotate_row \/ k = db5_row -> reach k h s -> current h id = Some b ->
  exists l, rows s id = Some l /\ forall o, o < size k -> mem s l o = nth o b 0%N.
Proof.
  intros K R C. assert (I : inv k h s) by (destruct K as [-> | [-> | ->]]; (apply reach_inv; [reflexivity|left; reflexivity|exact R])).
  destruct (rows s id) as [l|] eqn:E; [|rewrite (inv_none _ _ _ I id E) in C; discriminate].
  exists l. split; [reflexivity|]. destruct (inv_row _ _ _ I _ _ E) as (b' & C' & V). replace b with b' by congruence. exact V.
Qed.
(* SVR2 does, as long as no rows are loaded from another replica. *)
Theorem C109_db2_leaves_nothing_partial h s :
  existsb is_load h = false -> reach db2_row h s -> nothing_left db2_row h (mem s).
Proof. intros L R. apply inv_nothing_left. apply reach_inv; [reflexivity|right; exact L|exact R]. Qed.

(* Full, for SVR2 too: a row that was loaded and removed is still on the stack. *)
Theorem C109_db2_loaded_rows_stay_refuted : forall b o, length b = 80 -> o < 80 -> nth o b 0%N <> 0%N ->
  exists h s l, reach db2_row h s /\ (forall id, current h id = None) /\ mem s l o = nth o b 0%N.
Proof.
  intros b o L O _. exists [Remove 1; Load 1 b 0 1], (step db2_row (step db2_row init (Load 1 b 0 1)) (Remove 1)), 0. split; [|split].
  - apply reach_step; [|exact Logic.I]. apply reach_step; [constructor|]. cbn. unfold fits, free. cbn. rewrite L.
    split; [lia|]. split; [discriminate|]. split; [discriminate|]. split; [lia|reflexivity].
  - intros id. cbn [current]. destruct (N.eqb id 1); reflexivity.
  - assert (E : step db2_row (step db2_row init (Load 1 b 0 1)) (Remove 1) =
                State (mem_zero (copy_slot (copy_in (fun _ _ => 0%N) 0 0 b) 0 1 80) 1 0 80) (set_row (set_row (fun _ => None) 1 (Some 1)) 1 None)) by reflexivity.
    rewrite E. cbn [mem]. rewrite mem_zero_at, copy_slot_at, copy_in_at, L. cbn [Nat.eqb andb Nat.add]. rewrite Nat.sub_0_r.
    replace (Nat.leb 0 o) with true by reflexivity. cbn [andb]. destruct (Nat.ltb_spec o 80); [reflexivity|lia].
Qed.
(* For SVR3: a key that was removed is still there, whatever it is. *)
Theorem C109_db3_removed_keys_stay_refuted : forall b, length b = 32 ->
  exists h s l, reach db3_row h s /\ (forall id, current h id = None) /\ (forall o, o < 32 -> mem s l o = nth o b 0%N).
Proof.
  intros b L. exists [Remove 1; Store 1 b 0], (step db3_row (step db3_row init (Store 1 b 0)) (Remove 1)), 0. split; [|split].
  - apply reach_step; [|exact Logic.I]. apply reach_step; [constructor|]. cbn. split; [exact L|]. intros id H. discriminate H.
  - intros id. cbn [current]. destruct (N.eqb id 1); reflexivity.
  - intros o O. assert (E : mem (step db3_row (step db3_row init (Store 1 b 0)) (Remove 1)) = copy_in (fun _ _ => 0%N) 0 0 b) by reflexivity.
    rewrite E, copy_in_at, L, Nat.sub_0_r. cbn [Nat.eqb andb Nat.add]. replace (Nat.leb 0 o) with true by reflexivity. cbn [andb].
    destruct (Nat.ltb_spec o 32); [reflexivity|lia].
Qed.

(* MemZeroS writes zeros to what it is given, and to nothing else. *)
Theorem C109_zeroes_exactly m slot d n s o :
  mem_zero m slot d n s o = (if Nat.eqb s slot && Nat.leb d o && Nat.ltb o (d + n) then 0%N else m s o).
Proof. apply mem_zero_at. Qed.

Example C109_meets : exists h s, reach db5_row h s /\ length h = 5 /\ current h 2 = Some (repeat 9%N 32) /\ current h 1 = None /\ mem s 3 31 = 9%N /\ mem s 0 0 = 0%N.
Proof.
  set (h := [Remove 1; Load 2 (repeat 9%N 32) 1 3; Store 1 (repeat 7%N 32) 2; Store 1 (repeat 8%N 32) 0; Remove 4]).
  exists h, (fold_right (fun o s => step db5_row s o) init h). split; [|vm_compute; repeat split]. unfold h. cbn [fold_right].
  apply reach_step; [|exact Logic.I]. apply reach_step.
  - apply reach_step; [apply reach_step; [apply reach_step; [constructor|exact Logic.I]|]|].
    + split; [reflexivity|]. intros id H. discriminate H.
    + split; [reflexivity|]. intros id. cbn. unfold set_row. destruct (N.eqb id 1); [discriminate|discriminate].
  - split; [reflexivity|]. split; [|split; [|split; [lia|reflexivity]]];
      (intros id; cbn; unfold set_row; destruct (N.eqb id 1); discriminate).
Qed.

Print Assumptions C109_db4_and_db5_leave_nothing_partial.
Print Assumptions C109_secrets_are_kept.
Print Assumptions C109_db2_leaves_nothing_partial.
Print Assumptions C109_db2_loaded_rows_stay_refuted.
Print Assumptions C109_db3_removed_keys_stay_refuted.
Print Assumptions C109_zeroes_exactly.
