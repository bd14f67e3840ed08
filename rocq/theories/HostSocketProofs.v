From Verif Require Import HostSocket HostSocketSpec.

(* --- lists ---------------------------------------------------------------- *)
Lemma nth_set {A} i j (x : A) l : nth_error (set_nth i x l) j = if j =? i then match nth_error l i with Some _ => Some x | None => None end else nth_error l j.
Proof.
  revert i j. induction l as [|y l IH]; intros i j; [destruct i, j; cbn; try reflexivity; now destruct (_ =? _)|].
  destruct i as [|i], j as [|j]; cbn; try reflexivity. apply IH.
Qed.
Lemma length_set {A} i (x : A) l : length (set_nth i x l) = length l.
Proof. revert i. induction l as [|y l IH]; intros [|i]; cbn; auto. Qed.
Lemma Forall_set {A} (P : A -> Prop) i x l : P x -> Forall P l -> Forall P (set_nth i x l).
Proof. intros Px F. revert i. induction F; intros [|i]; cbn; auto. Qed.
Lemma Forall_nth {A} (P : A -> Prop) l i x : Forall P l -> nth_error l i = Some x -> P x.
Proof. intros F H. rewrite Forall_forall in F. eapply F, nth_error_In, H. Qed.

Definition b2n (b : bool) : nat := if b then 1 else 0.
Definition cnt {A} (f : A -> bool) (l : list A) : nat := length (filter f l).
Lemma cnt_app {A} (f : A -> bool) l l' : cnt f (l ++ l') = cnt f l + cnt f l'.
Proof. unfold cnt. now rewrite filter_app, app_length. Qed.
Lemma cnt_cons {A} (f : A -> bool) x l : cnt f (x :: l) = b2n (f x) + cnt f l.
Proof. unfold cnt. cbn. now destruct (f x). Qed.
Lemma cnt_one {A} (f : A -> bool) x : cnt f [x] = b2n (f x).
Proof. unfold cnt. cbn. now destruct (f x). Qed.
Lemma cnt_nil {A} (f : A -> bool) : cnt f [] = 0.
Proof. reflexivity. Qed.
Lemma cnt_set {A} (f : A -> bool) x y l : forall i, nth_error l i = Some y -> cnt f (set_nth i x l) + b2n (f y) = cnt f l + b2n (f x).
Proof.
  induction l as [|z l IH]; intros [|i] H; cbn in H; try discriminate.
  - injection H as ->. cbn [set_nth]. rewrite !cnt_cons. lia.
  - cbn [set_nth]. rewrite !cnt_cons. specialize (IH _ H). lia.
Qed.
Lemma cnt_zero {A} (f : A -> bool) l : Forall (fun x => f x = false) l -> cnt f l = 0.
Proof. induction 1; [reflexivity|]. rewrite cnt_cons, H, IHForall. reflexivity. Qed.
Lemma cnt_pos {A} (f : A -> bool) l x : In x l -> f x = true -> 1 <= cnt f l.
Proof. intros I F. unfold cnt. assert (X : In x (filter f l)) by now apply filter_In. destruct (filter f l); [destruct X|cbn; lia]. Qed.
Lemma cnt_pos_inv {A} (f : A -> bool) l : 1 <= cnt f l -> exists x, In x l /\ f x = true.
Proof. unfold cnt. intros H. destruct (filter f l) as [|x r] eqn:E; [cbn in H; lia|]. exists x. apply filter_In. rewrite E. now left. Qed.

(* --- where a message is ----------------------------------------------------- *)
Definition ident (m : nat) : N := N.of_nat (S m).
Lemma ident_inj m m' : ident m = ident m' -> m = m'.
Proof. unfold ident. lia. Qed.
Definition at_c (f : caller -> bool) (l : list caller) (m : nat) : nat := match nth_error l m with Some c => b2n (f c) | None => 0 end.
Definition is_send c := match c with CSend _ => true | _ => false end.
Definition is_ok c := match c with CDone (Status _) => true | _ => false end.
Definition of_up (m : nat) (p : N * nat) := snd p =? m.
Definition runs (m : nat) t := match t with TRun _ m' => m' =? m | _ => false end.
Definition replies (m : nat) t := match t with TReply _ m' _ => m' =? m | _ => false end.
Definition resp (m : nat) d := match d with DResp id _ => (id =? ident m)%N | _ => false end.
Definition of_served (m : nat) (p : nat * N) := fst p =? m.
Lemma at_set f l i x m : at_c f (set_nth i x l) m = if m =? i then match nth_error l i with Some _ => b2n (f x) | None => 0 end else at_c f l m.
Proof. unfold at_c. rewrite nth_set. destruct (m =? i); [|reflexivity]. now destruct (nth_error l i). Qed.
Lemma at_app f l x m : at_c f (l ++ [x]) m = if m =? length l then b2n (f x) else at_c f l m.
Proof.
  unfold at_c. destruct (Nat.eqb_spec m (length l)) as [->|N].
  - now rewrite nth_error_app2, Nat.sub_diag by lia.
  - destruct (Nat.lt_ge_cases m (length l)); [now rewrite nth_error_app1|].
    replace (nth_error (l ++ [x]) m) with (@None caller) by (symmetry; apply nth_error_None; rewrite app_length; cbn; lia).
    replace (nth_error l m) with (@None caller) by (symmetry; apply nth_error_None; lia). reflexivity.
Qed.

Definition pend (r : reader) : list (nat * N) := match r with RPut m x => [(m, x)] | _ => [] end.
Definition outs_of (l : list down) : list (nat * N) := flat_map (fun d => match d with DOut m x => [(m, x)] | _ => [] end) l.
Lemma outs_of_app a b : outs_of (a ++ b) = outs_of a ++ outs_of b.
Proof. apply flat_map_app. Qed.
Fixpoint ordered (l : list down) : Prop :=
  match l with
  | [] => True
  | DResp id _ :: r => (forall m x, In (DOut m x) r -> id <> ident m) /\ ordered r
  | _ :: r => ordered r
  end.
Lemma ordered_app l d : ordered l -> (forall m x, d = DOut m x -> cnt (resp m) l = 0) -> ordered (l ++ [d]).
Proof.
  induction l as [|e l IH]; intros O D; [destruct d; cbn; auto; now split|].
  assert (D' : forall m x, d = DOut m x -> cnt (resp m) l = 0) by (intros m x E; specialize (D m x E); rewrite cnt_cons in D; lia).
  destruct e; cbn [ordered app] in *; try (now apply IH). destruct O as [O1 O2]. split; [|now apply IH].
  intros m x I. apply in_app_or in I as [I|[->|[]]]; [now apply (O1 m x)|]. specialize (D m x eq_refl). rewrite cnt_cons in D. cbn [resp] in D.
  destruct (N.eqb_spec id (ident m)); [cbn [b2n] in D; lia|assumption].
Qed.

Definition thr_ok (n : nat) (t : thread) : Prop := match t with TIdle => True | TRun id m | TReply id m _ => id = ident m /\ m < n end.
Definition rep_ok (l : list (nat * N)) (t : thread) : Prop := match t with TReply _ m st => In (m, st) l | _ => True end.
Definition dn_ok (n : nat) (l : list (nat * N)) (d : down) : Prop := match d with DResp id st => exists m, id = ident m /\ m < n /\ In (m, st) l | _ => True end.

Record inv (s : sock) : Prop := {
  v_gen : gen s = N.of_nat (length (callers s));
  v_calls : Forall (fun p => fst p = ident (snd p) /\ snd p < length (callers s)) (calls s);
  v_callers : forall i id, nth_error (callers s) i = Some (CSend id) \/ nth_error (callers s) i = Some (CWait id) -> id = ident i;
  v_up : Forall (fun p => fst p = ident (snd p) /\ snd p < length (callers s)) (up s);
  v_thr : Forall (thr_ok (length (callers s))) (threads s);
  v_srv : Forall (fun p => fst p < length (callers s)) (served s);
  v_rep : Forall (rep_ok (served s)) (threads s);
  v_dn : Forall (dn_ok (length (callers s)) (served s)) (dn s);
  v_done : forall m st, nth_error (callers s) m = Some (CDone (Status st)) -> In (m, st) (served s);
  v_once : forall m, at_c is_send (callers s) m + cnt (of_up m) (up s) + cnt (runs m) (threads s) + cnt (of_served m) (served s) <= 1;
  v_tok : forall m, at_c is_send (callers s) m + cnt (of_up m) (up s) + cnt (runs m) (threads s) + cnt (replies m) (threads s) + cnt (resp m) (dn s)
            + at_c is_ok (callers s) m <= 1;
  v_wait : conn s = true -> forall m id, nth_error (callers s) m = Some (CWait id) ->
            1 <= cnt (of_up m) (up s) + cnt (runs m) (threads s) + cnt (replies m) (threads s) + cnt (resp m) (dn s);
  v_act : forall m id, nth_error (callers s) m = Some (CSend id) \/ nth_error (callers s) m = Some (CWait id) -> In (ident m, m) (calls s);
  v_ok : conn s = true -> forall m, nth_error (callers s) m <> Some (CDone SendFailed);
  v_rd : rd s = REnd -> conn s = false;
  v_outs : got s ++ chan s ++ pend (rd s) ++ outs_of (dn s) = outs s;
  v_ord : ordered (dn s);
  v_k2 : forall m st, nth_error (callers s) m = Some (CDone (Status st)) -> forall x, ~ In (DOut m x) (dn s) /\ rd s <> RPut m x }.

Lemma inv0 n : inv (sock0 n).
Proof.
  assert (T : forall (P : thread -> Prop), P TIdle -> Forall P (repeat TIdle n)) by (intros P H; apply Forall_forall; intros t I; now apply repeat_spec in I as ->).
  split; cbn [sock0 gen calls callers up threads dn rd chan conn served outs got length app pend outs_of ordered flat_map]; try (apply Forall_nil); try reflexivity; try discriminate; try exact I; try (intros; now destruct m).
  - intros i id [H|H]; now destruct i.
  - now apply T.
  - now apply T.
  - intros m. unfold at_c. replace (nth_error [] m) with (@None caller) by now destruct m. rewrite !cnt_nil, cnt_zero; [lia|]. now apply T.
  - intros m. unfold at_c. replace (nth_error [] m) with (@None caller) by now destruct m. rewrite !cnt_nil, !cnt_zero; [lia|now apply T..].
  - intros m id [H|H]; now destruct m.
Qed.

Lemma thr_mono n n' t : n <= n' -> thr_ok n t -> thr_ok n' t.
Proof. destruct t; cbn; auto; intros; intuition lia. Qed.
Lemma dn_mono n n' l l' d : n <= n' -> incl l l' -> dn_ok n l d -> dn_ok n' l' d.
Proof. destruct d; cbn; auto. intros L I (m & A & B & C). exists m. split; [assumption|]. split; [lia|now apply I]. Qed.
Lemma rep_mono l l' t : incl l l' -> rep_ok l t -> rep_ok l' t.
Proof. destruct t; cbn; auto. Qed.
Lemma find_call_in id l i : find_call id l = Some i -> In (id, i) l.
Proof. unfold find_call. destruct (find _ l) as [[a b]|] eqn:F; [|discriminate]. intros [= <-]. apply find_some in F as [I E]. cbn in *. apply N.eqb_eq in E as ->. assumption. Qed.
Lemma find_call_none id l i : find_call id l = None -> ~ In (id, i) l.
Proof.
  unfold find_call. destruct (find _ l) eqn:F; [discriminate|]. intros _ I. pose proof (find_none _ _ F _ I) as X. cbn in X. now rewrite N.eqb_refl in X.
Qed.
Lemma delete_in id l p : In p (delete_call id l) <-> In p l /\ fst p <> id.
Proof. unfold delete_call. rewrite filter_In. destruct (N.eqb_spec (fst p) id); cbn; intuition (congruence || discriminate). Qed.
Lemma Forall_delete (P : N * nat -> Prop) id l : Forall P l -> Forall P (delete_call id l).
Proof. intros F. apply Forall_forall. intros p I. apply delete_in in I as [I _]. rewrite Forall_forall in F. auto. Qed.
Lemma at_c_nth f l m c : nth_error l m = Some c -> at_c f l m = b2n (f c).
Proof. unfold at_c. now intros ->. Qed.
Lemma cnt_fresh_up n m l : Forall (fun p : N * nat => fst p = ident (snd p) /\ snd p < n) l -> n <= m -> cnt (of_up m) l = 0.
Proof. intros F L. apply cnt_zero. eapply Forall_impl; [|exact F]. intros p [_ H]. apply Nat.eqb_neq. cbn in H. lia. Qed.
Lemma cnt_fresh_thr n m l : Forall (thr_ok n) l -> n <= m -> cnt (runs m) l = 0 /\ cnt (replies m) l = 0.
Proof. intros F L. split; apply cnt_zero; (eapply Forall_impl; [|exact F]); intros [|id m'|id m' st] H; cbn in *; try reflexivity; destruct H; apply Nat.eqb_neq; lia. Qed.
Lemma cnt_fresh_srv n m l : Forall (fun p : nat * N => fst p < n) l -> n <= m -> cnt (of_served m) l = 0.
Proof. intros F L. apply cnt_zero. eapply Forall_impl; [|exact F]. intros p H. apply Nat.eqb_neq. cbn in H. lia. Qed.
Lemma cnt_fresh_dn n m sv l : Forall (dn_ok n sv) l -> n <= m -> cnt (resp m) l = 0.
Proof.
  intros F L. apply cnt_zero. eapply Forall_impl; [|exact F]. intros [id st| |] H; cbn in *; try reflexivity. destruct H as (m' & -> & H & _).
  apply N.eqb_neq. intros E. apply ident_inj in E. lia.
Qed.
Lemma nth_app_last {A} (l : list A) x m y : nth_error (l ++ [x]) m = Some y -> (m < length l /\ nth_error l m = Some y) \/ (m = length l /\ x = y).
Proof.
  intros H. destruct (Nat.lt_ge_cases m (length l)) as [L|L]; [left; rewrite nth_error_app1 in H by assumption; auto|].
  right. rewrite nth_error_app2 in H by assumption. destruct (m - length l) as [|[|k]] eqn:E; cbn in H; try discriminate. injection H as ->. split; [lia|reflexivity].
Qed.

Lemma inv_call s id : inv s -> id = ident (length (callers s)) ->
  inv (Sock id ((id, length (callers s)) :: delete_call id (calls s)) (callers s ++ [CSend id]) (up s) (threads s) (dn s) (rd s) (chan s) (conn s)
         (served s) (outs s) (got s)).
Proof.
  intros I ->. set (n := length (callers s)) in *. destruct I as [G C Cr U T Sv Rp Dn Do On To Wa Ac Ok Rd Ou Or K].
  assert (Ln : length (callers s ++ [CSend (ident n)]) = S n) by (rewrite app_length; cbn; fold n; lia).
  split; cbn [gen calls callers up threads dn rd chan conn served outs got]; try assumption; rewrite ?Ln.
  - reflexivity.
  - constructor; [cbn; split; [reflexivity|lia]|]. apply Forall_delete. eapply Forall_impl; [|exact C]. cbn. intuition lia.
  - intros i id [H|H]; apply nth_app_last in H as [[L H]|[-> H]]; try (apply Cr; now auto); try discriminate H; injection H as <-; reflexivity.
  - eapply Forall_impl; [|exact U]. cbn. intuition lia.
  - eapply Forall_impl; [|exact T]. intros t. apply thr_mono. lia.
  - eapply Forall_impl; [|exact Sv]. cbn. intuition lia.
  - eapply Forall_impl; [|exact Dn]. intros d. apply dn_mono; [lia|apply incl_refl].
  - intros m st H. apply nth_app_last in H as [[L H]|[-> H]]; [auto|discriminate].
  - intros m. rewrite at_app. fold n. destruct (Nat.eqb_spec m n) as [->|]; [|apply On].
    rewrite (cnt_fresh_up n), (cnt_fresh_srv n) by auto. destruct (cnt_fresh_thr n n (threads s) T (le_n n)) as [-> _]. cbn. lia.
  - intros m. rewrite !at_app. fold n. destruct (Nat.eqb_spec m n) as [->|]; [|apply To].
    rewrite (cnt_fresh_up n), (cnt_fresh_dn n _ (served s)) by auto. destruct (cnt_fresh_thr n n (threads s) T (le_n n)) as [-> ->]. cbn. lia.
  - intros Cn m id H. apply nth_app_last in H as [[L H]|[-> H]]; [eauto|discriminate].
  - intros m id H. assert (X : m < n /\ (nth_error (callers s) m = Some (CSend id) \/ nth_error (callers s) m = Some (CWait id)) \/ m = n).
    { destruct H as [H|H]; apply nth_app_last in H as [[L H]|[-> _]]; auto. }
    destruct X as [[L X]| ->]; [|now left]. right. apply delete_in. split; [eapply Ac; eassumption|]. cbn. intros E. apply ident_inj in E. lia.
  - intros Cn m H. apply nth_app_last in H as [[L H]|[-> H]]; [now apply (Ok Cn m)|discriminate].
  - intros m st H. apply nth_app_last in H as [[L H]|[-> H]]; [eapply K; eassumption|discriminate].
Qed.
Lemma length_step cap s e s' : step cap s e = Some s' -> length (callers s) <= length (callers s').
Proof.
  intros E. destruct e; cbn [step] in E.
  - injection E as <-. cbn. rewrite app_length. lia.
  - destruct (nth_error (callers s) i) as [[]|]; try discriminate. destruct (conn s); [|discriminate]. injection E as <-. cbn. rewrite length_set. lia.
  - destruct (nth_error (callers s) i) as [[]|]; try discriminate. injection E as <-. cbn. rewrite length_set. lia.
  - destruct (nth_error (threads s) k) as [[]|]; try discriminate. destruct (up s) as [|[]]; [discriminate|]. injection E as <-. cbn. lia.
  - destruct (nth_error (threads s) k) as [[]|]; try discriminate. injection E as <-. cbn. lia.
  - injection E as <-. cbn. lia.
  - destruct (nth_error (threads s) k) as [[]|]; try discriminate. injection E as <-. cbn. lia.
  - destruct (nth_error (threads s) k) as [[]|]; try discriminate. injection E as <-. cbn. lia.
  - destruct (rd s); try discriminate. destruct (dn s) as [|[] r]; try discriminate.
    + destruct (find_call id (calls s)); injection E as <-; cbn; rewrite ?length_set; lia.
    + destruct (_ <? _); injection E as <-; cbn; lia.
    + injection E as <-; cbn; lia.
  - destruct (rd s); try discriminate. destruct (_ <? _); [|discriminate]. injection E as <-; cbn; lia.
  - destruct (rd s); try discriminate. destruct (conn s); [discriminate|]. injection E as <-; cbn; lia.
  - destruct (chan s); [discriminate|]. injection E as <-; cbn; lia.
  - injection E as <-. cbn. lia.
Qed.

Lemma cs_send id : is_send (CSend id) = true. Proof. reflexivity. Qed.
Lemma inv_step cap s e s' : inv s -> step cap s e = Some s' -> young s' -> inv s'.
Proof.
  intros I E Y. pose proof I as I0. destruct I as [G C Cr U T Sv Rp Dn Do On To Wa Ac Ok Rd Ou Or K]. destruct e; cbn [step] in E.
  - (* ECall *) injection E as <-. apply inv_call; [assumption|]. unfold young in Y. cbn [callers] in Y. rewrite app_length in Y. cbn [length] in Y.
    rewrite G. unfold ident. rewrite N.mod_small by lia. lia.
  - (* ESend *) destruct (nth_error (callers s) i) as [[id| |]|] eqn:Ci; try discriminate. destruct (conn s) eqn:Cn; [|discriminate]. injection E as <-.
    pose proof (Cr i id (or_introl Ci)) as ->. assert (Li : i < length (callers s)) by (apply nth_error_Some; congruence).
    assert (Nx : forall m c, nth_error (set_nth i (CWait (ident i)) (callers s)) m = Some c -> m = i /\ c = CWait (ident i) \/ m <> i /\ nth_error (callers s) m = Some c).
    { intros m c H. rewrite nth_set, Ci in H. destruct (Nat.eqb_spec m i) as [->|]; [left; split; congruence|auto]. }
    split; cbn [gen calls callers up threads dn rd chan conn served outs got]; rewrite ?length_set; try assumption.
    + intros m id [H|H]; apply Nx in H as [[-> H]|[_ H]]; try discriminate H; auto; congruence.
    + apply Forall_app. split; [assumption|]. constructor; [now split|constructor].
    + intros m st H. apply Nx in H as [[-> H]|[_ H]]; [discriminate H|auto].
    + intros m. specialize (On m). rewrite at_set, Ci, cnt_app, cnt_one. unfold of_up at 2. cbn [snd]. rewrite (Nat.eqb_sym i m).
      destruct (Nat.eqb_spec m i) as [->|]; cbn [b2n is_send]; [|lia]. rewrite (at_c_nth _ _ _ _ Ci) in On. cbn in *. lia.
    + intros m. specialize (To m). rewrite !at_set, Ci, cnt_app, cnt_one. unfold of_up at 2. cbn [snd]. rewrite (Nat.eqb_sym i m).
      destruct (Nat.eqb_spec m i) as [->|]; cbn [b2n is_send is_ok]; [|lia]. rewrite !(at_c_nth _ _ _ _ Ci) in To. cbn [b2n is_send is_ok] in To. lia.
    + intros _ m id H. rewrite cnt_app, cnt_one. unfold of_up at 2. cbn [snd]. apply Nx in H as [[-> H]|[N H]]; [rewrite Nat.eqb_refl; cbn; lia|].
      specialize (Wa eq_refl m id H). lia.
    + intros m id [H|H]; apply Nx in H as [[-> H]|[_ H]]; try discriminate H; eauto.
    + intros _ m H. apply Nx in H as [[-> H]|[_ H]]; [discriminate H|]. now apply (Ok eq_refl m).
    + intros m st H. apply Nx in H as [[-> H]|[_ H]]; [discriminate H|eauto].
  - (* ESendErr *) destruct (nth_error (callers s) i) as [[id| |]|] eqn:Ci; try discriminate. injection E as <-.
    pose proof (Cr i id (or_introl Ci)) as ->. assert (Li : i < length (callers s)) by (apply nth_error_Some; congruence).
    assert (Nx : forall m c, nth_error (set_nth i (CDone SendFailed) (callers s)) m = Some c -> m = i /\ c = CDone SendFailed \/ m <> i /\ nth_error (callers s) m = Some c).
    { intros m c H. rewrite nth_set, Ci in H. destruct (Nat.eqb_spec m i) as [->|]; [left; split; congruence|auto]. }
    assert (Cu : forall m, cnt (of_up m) (if sent then up s ++ [(ident i, i)] else up s) <= cnt (of_up m) (up s) + b2n (m =? i)).
    { intros m. destruct sent; [|lia]. rewrite cnt_app, cnt_one. unfold of_up at 2. cbn [snd]. rewrite (Nat.eqb_sym i m). lia. }
    split; cbn [gen calls callers up threads dn rd chan conn served outs got]; rewrite ?length_set; try assumption; try discriminate.
    + now apply Forall_delete.
    + intros m id [H|H]; apply Nx in H as [[-> H]|[_ H]]; try discriminate H; auto; congruence.
    + destruct sent; [|assumption]. apply Forall_app. split; [assumption|]. constructor; [now split|constructor].
    + intros m st H. apply Nx in H as [[-> H]|[_ H]]; [discriminate H|auto].
    + intros m. specialize (On m). specialize (Cu m). rewrite at_set, Ci.
      destruct (Nat.eqb_spec m i) as [->|]; cbn [b2n is_send] in *; [|lia]. rewrite (at_c_nth _ _ _ _ Ci) in On. cbn [b2n is_send] in On. lia.
    + intros m. specialize (To m). specialize (Cu m). rewrite !at_set, Ci.
      destruct (Nat.eqb_spec m i) as [->|]; cbn [b2n is_send is_ok] in *; [|lia]. rewrite !(at_c_nth _ _ _ _ Ci) in To. cbn [b2n is_send is_ok] in To. lia.
    + intros m id [H|H]; apply Nx in H as [[-> H]|[N H]]; try discriminate H; apply delete_in; (split; [eauto|]); cbn; intros X; now apply ident_inj in X.
    + reflexivity.
    + intros m st H. apply Nx in H as [[-> H]|[_ H]]; [discriminate H|eauto].
  - (* ETake *) destruct (nth_error (threads s) k) as [[| |]|] eqn:Tk; try discriminate. destruct (up s) as [|[id m0] r] eqn:Up; [discriminate|]. injection E as <-.
    apply Forall_cons_iff in U as [[X Lm] Ur]. cbn [fst snd] in X, Lm. subst id.
    pose proof (fun m => cnt_set (runs m) (TRun (ident m0) m0) _ _ _ Tk) as A. pose proof (fun m => cnt_set (replies m) (TRun (ident m0) m0) _ _ _ Tk) as B.
    split; cbn [gen calls callers up threads dn rd chan conn served outs got]; try assumption.
    + apply Forall_set; [now split|assumption].
    + now apply Forall_set.
    + intros m. specialize (On m). specialize (A m). rewrite cnt_cons in On. unfold of_up at 1 in On. cbn [snd runs b2n] in *. lia.
    + intros m. specialize (To m). specialize (A m). specialize (B m). rewrite cnt_cons in To. unfold of_up at 1 in To. cbn [snd runs replies b2n] in *. lia.
    + intros Cn m id H. specialize (Wa Cn m id H). specialize (A m). specialize (B m). rewrite cnt_cons in Wa. unfold of_up at 1 in Wa. cbn [snd runs replies b2n] in *. lia.
  - (* EEmit *) destruct (nth_error (threads s) k) as [[|id m0|]|] eqn:Tk; try discriminate. injection E as <-.
    pose proof (Forall_nth _ _ _ _ T Tk) as [-> Lm]. assert (P : 1 <= cnt (runs m0) (threads s)) by (eapply cnt_pos; [eapply nth_error_In, Tk|cbn; apply Nat.eqb_refl]).
    assert (Rs : forall m, cnt (resp m) (dn s ++ [DOut m0 x]) = cnt (resp m) (dn s)) by (intros m; rewrite cnt_app, cnt_one; cbn; lia).
    split; cbn [gen calls callers up threads dn rd chan conn served outs got]; try assumption; try (intros m; rewrite Rs; apply To).
    + apply Forall_app. split; [assumption|]. repeat constructor.
    + intros Cn m id H. rewrite Rs. eauto.
    + rewrite outs_of_app. cbn [outs_of flat_map app]. rewrite !app_assoc in *. now rewrite Ou.
    + apply ordered_app; [assumption|]. intros m y [= <- <-]. specialize (To m0). lia.
    + intros m st H y. destruct (K m st H y) as [K1 K2]. split; [|assumption]. intros X. apply in_app_or in X as [X|[X|[]]]; [contradiction|].
      injection X as -> _. specialize (To m). rewrite (at_c_nth is_ok _ _ _ H) in To. cbn [b2n is_ok] in To. lia.
  - (* ELog *) injection E as <-.
    assert (Rs : forall m, cnt (resp m) (dn s ++ [DLog]) = cnt (resp m) (dn s)) by (intros m; rewrite cnt_app, cnt_one; cbn; lia).
    split; cbn [gen calls callers up threads dn rd chan conn served outs got]; try assumption; try (intros m; rewrite Rs; apply To).
    + apply Forall_app. split; [assumption|]. repeat constructor.
    + intros Cn m id H. rewrite Rs. eauto.
    + rewrite outs_of_app. cbn [outs_of flat_map app]. now rewrite app_nil_r.
    + apply ordered_app; [assumption|]. discriminate.
    + intros m st H y. destruct (K m st H y) as [K1 K2]. split; [|assumption]. intros X. apply in_app_or in X as [X|[X|[]]]; [contradiction|discriminate X].
  - (* EEnd *) destruct (nth_error (threads s) k) as [[|id m0|]|] eqn:Tk; try discriminate. injection E as <-.
    pose proof (Forall_nth _ _ _ _ T Tk) as [-> Lm].
    pose proof (fun m => cnt_set (runs m) (TReply (ident m0) m0 st) _ _ _ Tk) as A. pose proof (fun m => cnt_set (replies m) (TReply (ident m0) m0 st) _ _ _ Tk) as B.
    assert (Inc : incl (served s) (served s ++ [(m0, st)])) by apply incl_appl, incl_refl.
    split; cbn [gen calls callers up threads dn rd chan conn served outs got]; try assumption.
    + apply Forall_set; [now split|assumption].
    + apply Forall_app. split; [assumption|]. constructor; [assumption|constructor].
    + apply Forall_set; [cbn; apply in_or_app; right; now left|]. eapply Forall_impl; [|exact Rp]. intros t. now apply rep_mono.
    + eapply Forall_impl; [|exact Dn]. intros d. now apply dn_mono.
    + intros m st' H. apply Inc. auto.
    + intros m. specialize (On m). specialize (A m). rewrite cnt_app, cnt_one. unfold of_served at 2. cbn [fst runs b2n] in *. lia.
    + intros m. specialize (To m). specialize (A m). specialize (B m). cbn [runs replies b2n] in *. lia.
    + intros Cn m id H. specialize (Wa Cn m id H). specialize (A m). specialize (B m). cbn [runs replies b2n] in *. lia.
  - (* EReply *) destruct (nth_error (threads s) k) as [[| |id m0 st]|] eqn:Tk; try discriminate. injection E as <-.
    pose proof (Forall_nth _ _ _ _ T Tk) as [-> Lm]. pose proof (Forall_nth _ _ _ _ Rp Tk) as Rm. cbn in Rm.
    pose proof (fun m => cnt_set (runs m) TIdle _ _ _ Tk) as A. pose proof (fun m => cnt_set (replies m) TIdle _ _ _ Tk) as B.
    assert (Rs : forall m, cnt (resp m) (dn s ++ [DResp (ident m0) st]) = cnt (resp m) (dn s) + b2n (m0 =? m)).
    { intros m. rewrite cnt_app, cnt_one. cbn [resp]. f_equal. f_equal. destruct (Nat.eqb_spec m0 m) as [->|N]; [apply N.eqb_refl|]. apply N.eqb_neq. intros X. now apply ident_inj in X. }
    split; cbn [gen calls callers up threads dn rd chan conn served outs got]; try assumption.
    + apply Forall_set; [exact Logic.I|assumption].
    + apply Forall_set; [exact Logic.I|assumption].
    + apply Forall_app. split; [assumption|]. constructor; [|constructor]. cbn. now exists m0.
    + intros m. specialize (On m). specialize (A m). cbn [runs b2n] in *. lia.
    + intros m. specialize (To m). specialize (A m). specialize (B m). rewrite Rs. cbn [runs replies b2n] in *. lia.
    + intros Cn m id H. specialize (Wa Cn m id H). specialize (A m). specialize (B m). rewrite Rs. cbn [runs replies b2n] in *. lia.
    + rewrite outs_of_app. cbn [outs_of flat_map app]. now rewrite app_nil_r.
    + apply ordered_app; [assumption|]. discriminate.
    + intros m st' H y. destruct (K m st' H y) as [K1 K2]. split; [|assumption]. intros X. apply in_app_or in X as [X|[X|[]]]; [contradiction|discriminate X].
  - (* ERead *) destruct (rd s) eqn:R; try discriminate. destruct (dn s) as [|d r] eqn:D; [discriminate|]. inversion Dn as [|? ? Dh Dr]; subst.
    assert (Tor : forall m, at_c is_send (callers s) m + cnt (of_up m) (up s) + cnt (runs m) (threads s) + cnt (replies m) (threads s) + (b2n (resp m d) + cnt (resp m) r)
            + at_c is_ok (callers s) m <= 1) by (intros m; rewrite <- cnt_cons; apply To).
    assert (War : conn s = true -> forall m id, nth_error (callers s) m = Some (CWait id) ->
            1 <= cnt (of_up m) (up s) + cnt (runs m) (threads s) + cnt (replies m) (threads s) + (b2n (resp m d) + cnt (resp m) r)) by (intros Cn m id H; rewrite <- cnt_cons; eauto).
    destruct d as [id st|m0 x|].
    + destruct Dh as (m0 & -> & Lm & Sm). cbn [ordered] in Or. destruct Or as [Or1 Or2]. cbn [outs_of flat_map app] in Ou. fold (outs_of r) in Ou.
      destruct (find_call (ident m0) (calls s)) as [j|] eqn:F; injection E as <-.
      * apply find_call_in in F. rewrite Forall_forall in C. pose proof (C _ F) as [X _]. cbn in X. apply ident_inj in X as <-. rewrite <- Forall_forall in C.
        destruct (nth_error (callers s) m0) as [c|] eqn:Cm; [|apply nth_error_None in Cm; lia].
        assert (Nx : forall m c, nth_error (set_nth m0 (CDone (Status st)) (callers s)) m = Some c -> m = m0 /\ c = CDone (Status st) \/ m <> m0 /\ nth_error (callers s) m = Some c).
        { intros m c' H. rewrite nth_set, Cm in H. destruct (Nat.eqb_spec m m0) as [->|]; [left; split; congruence|auto]. }
        assert (Rh : forall m, resp m (DResp (ident m0) st) = (m =? m0)).
        { intros m. cbn [resp]. destruct (Nat.eqb_spec m m0) as [->|N]; [apply N.eqb_refl|]. apply N.eqb_neq. intros X. apply ident_inj in X. congruence. }
        split; cbn [gen calls callers up threads dn rd chan conn served outs got]; rewrite ?length_set; try assumption.
        -- now apply Forall_delete.
        -- intros m id [H|H]; apply Nx in H as [[-> H]|[_ H]]; try discriminate H; auto.
        -- intros m st' H. apply Nx in H as [[-> H]|[_ H]]; [injection H as ->; assumption|auto].
        -- intros m. specialize (On m). rewrite at_set, Cm. destruct (Nat.eqb_spec m m0) as [->|]; [|assumption]. cbn [b2n is_send]. lia.
        -- intros m. pose proof (Tor m) as Tm. rewrite Rh in Tm. rewrite !at_set, Cm. destruct (Nat.eqb_spec m m0) as [e0|]; [rewrite e0 in *|]; cbn [b2n is_send is_ok] in *; lia.
        -- intros Cn m id H. apply Nx in H as [[-> H]|[N H]]; [discriminate H|]. specialize (War Cn m id H). rewrite Rh in War. apply Nat.eqb_neq in N. rewrite N in War. cbn [b2n] in War. lia.
        -- intros m id [H|H]; apply Nx in H as [[-> H]|[N H]]; try discriminate H; apply delete_in; (split; [eauto|]); cbn; intros X; now apply ident_inj in X.
        -- intros Cn m H. apply Nx in H as [[-> H]|[_ H]]; [discriminate H|]. now apply (Ok Cn m).
        -- intros m st' H y. split; [|discriminate]. apply Nx in H as [[-> H]|[_ H]]; [intros X; now apply (Or1 m0 y)|]. intros X. apply (proj1 (K m st' H y)). now right.
      * split; cbn [gen calls callers up threads dn rd chan conn served outs got]; try assumption; try discriminate.
        -- intros m. specialize (Tor m). lia.
        -- reflexivity.
        -- intros m st' H y. split; [|discriminate]. intros X. apply (proj1 (K m st' H y)). now right.
    + cbn [ordered] in Or. cbn [resp b2n] in Tor, War. cbn [outs_of flat_map app pend] in Ou. fold (outs_of r) in Ou.
      assert (Kr : forall m st, nth_error (callers s) m = Some (CDone (Status st)) -> m <> m0 /\ forall y, ~ In (DOut m y) r).
      { intros m st H. split; [|intros y X; apply (proj1 (K m st H y)); now right]. intros ->. apply (proj1 (K m0 st H x)). now left. }
      destruct (_ <? _); injection E as <-; split; cbn [gen calls callers up threads dn rd chan conn served outs got]; try assumption; try discriminate.
      * cbn [pend]. rewrite <- !app_assoc. exact Ou.
      * intros m st H y. split; [now apply (Kr m st H)|discriminate].
      * intros m st H y. destruct (Kr m st H) as [N X]. split; [apply X|]. intros Q. injection Q as Q1 _. congruence.
    + cbn [ordered] in Or. cbn [resp b2n] in Tor, War. cbn [outs_of flat_map app pend] in Ou. fold (outs_of r) in Ou. injection E as <-.
      split; cbn [gen calls callers up threads dn rd chan conn served outs got]; try assumption; try discriminate.
      intros m st H y. split; [|discriminate]. intros X. apply (proj1 (K m st H y)). now right.
  - (* EPut *) destruct (rd s) as [|m0 x|] eqn:R; try discriminate. destruct (_ <? _); [|discriminate]. injection E as <-.
    split; cbn [gen calls callers up threads dn rd chan conn served outs got]; try assumption; try discriminate.
    + cbn [pend app] in *. rewrite <- !app_assoc. exact Ou.
    + intros m st H y. split; [exact (proj1 (K m st H y))|discriminate].
  - (* EReadErr *) destruct (rd s) eqn:R; try discriminate. destruct (conn s) eqn:Cn; [discriminate|]. injection E as <-.
    split; cbn [gen calls callers up threads dn rd chan conn served outs got]; try assumption; try discriminate; [reflexivity|].
    intros m st H y. split; [exact (proj1 (K m st H y))|discriminate].
  - (* ETakeOut *) destruct (chan s) as [|y r] eqn:Ch; [discriminate|]. injection E as <-.
    split; cbn [gen calls callers up threads dn rd chan conn served outs got]; try assumption. rewrite <- app_assoc. exact Ou.
  - (* ELost *) injection E as <-.
    split; cbn [gen calls callers up threads dn rd chan conn served outs got]; try assumption; try discriminate.
    + constructor.
    + intros m. specialize (On m). rewrite cnt_nil. lia.
    + intros m. specialize (To m). rewrite cnt_nil. lia.
    + reflexivity.
Qed.
Lemma young_step cap s e s' : step cap s e = Some s' -> young s' -> young s.
Proof. intros E Y. apply length_step in E. unfold young in *. lia. Qed.
Lemma young_run cap es : forall s s', run cap s es = Some s' -> young s' -> young s.
Proof.
  induction es as [|e es IH]; cbn; intros s s' H Y; [now injection H as <-|]. destruct (step cap s e) as [s1|] eqn:E; [|discriminate].
  eapply young_step; [exact E|]. eapply IH; eassumption.
Qed.
Lemma inv_run cap es : forall s s', inv s -> run cap s es = Some s' -> young s' -> inv s'.
Proof.
  induction es as [|e es IH]; cbn; intros s s' I H Y; [now injection H as <-|]. destruct (step cap s e) as [s1|] eqn:E; [|discriminate].
  eapply IH; [|exact H|exact Y]. eapply inv_step; [exact I|exact E|]. eapply young_run; eassumption.
Qed.
Lemma inv_reach cap n s : reachable cap n s -> young s -> inv s.
Proof. intros (es & H) Y. eapply inv_run; [apply inv0|exact H|exact Y]. Qed.

(* --- consequences ----------------------------------------------------------- *)
Lemma filter_snd (l : list (nat * N)) i st : In (i, st) l -> cnt (of_served i) l <= 1 -> map snd (filter (fun p => fst p =? i) l) = [st].
Proof.
  intros I L. unfold cnt in L. assert (X : In (i, st) (filter (of_served i) l)) by (apply filter_In; split; [assumption|apply Nat.eqb_refl]).
  change (fun p : nat * N => fst p =? i) with (of_served i). destruct (filter (of_served i) l) as [|p [|q r]]; cbn in *; [destruct X|destruct X as [->|[]]; reflexivity|lia].
Qed.
Lemma sum_set {A} (f : A -> nat) x y l : forall i, nth_error l i = Some y -> list_sum (map f (set_nth i x l)) + f y = list_sum (map f l) + f x.
Proof.
  induction l as [|z l IH]; intros [|i] H; cbn in H; try discriminate.
  - injection H as ->. cbn. lia.
  - cbn. specialize (IH _ H). unfold list_sum in *. lia.
Qed.
Lemma work_step cap s e s' : inv s -> conn s = true -> goes_on e = true -> step cap s e = Some s' -> work s' < work s /\ conn s' = true /\ length (callers s') = length (callers s).
Proof.
  intros I Cn Ge E. unfold work. destruct e; try discriminate Ge; cbn [step] in E.
  - destruct (nth_error (callers s) i) as [[id| |]|] eqn:Ci; try discriminate. rewrite Cn in E. injection E as <-.
    pose proof (sum_set work_c (CWait id) _ _ _ Ci) as X. cbn [callers up threads dn rd chan conn work_c] in *. rewrite app_length, length_set. cbn [length]. split; [lia|auto].
  - destruct (nth_error (threads s) k) as [[| |]|] eqn:Tk; try discriminate. destruct (up s) as [|[id m] r]; [discriminate|]. injection E as <-.
    pose proof (sum_set work_t (TRun id m) _ _ _ Tk) as X. cbn [callers up threads dn rd chan conn work_t length] in *. split; [lia|auto].
  - destruct (nth_error (threads s) k) as [[|id m|]|] eqn:Tk; try discriminate. injection E as <-.
    pose proof (sum_set work_t (TReply id m st) _ _ _ Tk) as X. cbn [callers up threads dn rd chan conn work_t length] in *. split; [lia|auto].
  - destruct (nth_error (threads s) k) as [[| |id m st]|] eqn:Tk; try discriminate. injection E as <-.
    pose proof (sum_set work_t TIdle _ _ _ Tk) as X. cbn [callers up threads dn rd chan conn work_t length] in *. rewrite app_length. cbn [length]. split; [lia|auto].
  - destruct (rd s) eqn:R; try discriminate. destruct (dn s) as [|[id st|m x|] r] eqn:D; try discriminate.
    + destruct (find_call id (calls s)) as [i|] eqn:F.
      * injection E as <-. cbn [callers up threads dn rd chan conn length]. rewrite length_set. apply find_call_in in F.
        pose proof (v_calls s I) as C. rewrite Forall_forall in C. destruct (C _ F) as [_ L]. cbn [fst snd] in L.
        destruct (nth_error (callers s) i) as [c|] eqn:Ci; [|apply nth_error_None in Ci; lia].
        pose proof (sum_set work_c (CDone (Status st)) _ _ _ Ci) as X. cbn [work_c] in X. split; [lia|auto].
      * exfalso. pose proof (v_dn s I) as Dn. rewrite D in Dn. apply Forall_cons_iff in Dn as [(m & -> & L & _) _].
        pose proof (v_tok s I m) as T. rewrite D, cnt_cons in T. cbn [resp] in T. rewrite N.eqb_refl in T. cbn [b2n] in T.
        destruct (nth_error (callers s) m) as [c|] eqn:Cm; [|apply nth_error_None in Cm; lia].
        rewrite !(at_c_nth _ _ _ _ Cm) in T. destruct c as [id|id|[st'|]]; cbn [is_send is_ok b2n] in T; try lia.
        -- exact (find_call_none _ _ _ F (v_act s I m id (or_intror Cm))).
        -- exact (v_ok s I Cn m Cm).
    + destruct (_ <? _); injection E as <-; cbn [callers up threads dn rd chan conn length]; rewrite ?app_length; cbn [length]; (split; [lia|auto]).
    + injection E as <-; cbn [callers up threads dn rd chan conn length]. split; [lia|auto].
  - destruct (rd s) eqn:R; try discriminate. destruct (_ <? _); [|discriminate]. injection E as <-. cbn [callers up threads dn rd chan conn length]. rewrite app_length. cbn [length]. split; [lia|auto].
  - destruct (chan s) as [|y r] eqn:Ch; [discriminate|]. injection E as <-. cbn [callers up threads dn rd chan conn length]. split; [lia|auto].
Qed.
Lemma work_run cap es : forall s s', inv s -> young s -> conn s = true -> Forall (fun e => goes_on e = true) es -> run cap s es = Some s' ->
  length es <= work s /\ inv s' /\ conn s' = true /\ length (callers s') = length (callers s).
Proof.
  induction es as [|e es IH]; cbn [run]; intros s s' I Y Cn F H; [injection H as <-; split; [cbn; lia|auto]|]. apply Forall_cons_iff in F as [Fe F].
  destruct (step cap s e) as [s1|] eqn:E; [|discriminate]. destruct (work_step _ _ _ _ I Cn Fe E) as (W & C1 & L1).
  assert (Y1 : young s1) by (unfold young; rewrite L1; exact Y).
  destruct (IH s1 s' (inv_step _ _ _ _ I E Y1) Y1 C1 F H) as (A & B & C & D). cbn [length]. split; [lia|]. split; [assumption|]. split; [assumption|congruence].
Qed.
Lemma threads_step cap s e s' : step cap s e = Some s' -> length (threads s') = length (threads s).
Proof.
  intros E. destruct e; cbn [step] in E.
  - now injection E as <-.
  - destruct (nth_error (callers s) i) as [[]|]; try discriminate. destruct (conn s); [|discriminate]. now injection E as <-.
  - destruct (nth_error (callers s) i) as [[]|]; try discriminate. now injection E as <-.
  - destruct (nth_error (threads s) k) as [[]|]; try discriminate. destruct (up s) as [|[]]; [discriminate|]. injection E as <-. apply length_set.
  - destruct (nth_error (threads s) k) as [[]|]; try discriminate. now injection E as <-.
  - now injection E as <-.
  - destruct (nth_error (threads s) k) as [[]|]; try discriminate. injection E as <-. apply length_set.
  - destruct (nth_error (threads s) k) as [[]|]; try discriminate. injection E as <-. apply length_set.
  - destruct (rd s); try discriminate. destruct (dn s) as [|[] r]; try discriminate.
    + destruct (find_call id (calls s)); now injection E as <-.
    + destruct (_ <? _); now injection E as <-.
    + now injection E as <-.
  - destruct (rd s); try discriminate. destruct (_ <? _); [|discriminate]. now injection E as <-.
  - destruct (rd s); try discriminate. destruct (conn s); [discriminate|]. now injection E as <-.
  - destruct (chan s); [discriminate|]. now injection E as <-.
  - now injection E as <-.
Qed.
Lemma threads_run cap es : forall s s', run cap s es = Some s' -> length (threads s') = length (threads s).
Proof.
  induction es as [|e es IH]; cbn; intros s s' H; [now injection H as <-|]. destruct (step cap s e) as [s1|] eqn:E; [|discriminate].
  rewrite (IH _ _ H). eapply threads_step, E.
Qed.
Lemma run_app cap a : forall s b, run cap s (a ++ b) = match run cap s a with Some s' => run cap s' b | None => None end.
Proof. induction a as [|e a IH]; cbn; intros s b; [reflexivity|]. destruct (step cap s e); [apply IH|reflexivity]. Qed.

Lemma none_waits cap s : 0 < cap -> 0 < length (threads s) -> inv s -> conn s = true -> cannot_go_on cap s -> forall i, ~ waiting s i.
Proof.
  intros Cp Nt I Cn X i (id & W).
  assert (Ch : chan s = []) by (pose proof (X ETakeOut eq_refl) as E; cbn [step] in E; destruct (chan s); [reflexivity|discriminate]).
  assert (R : rd s = RRun).
  { destruct (rd s) eqn:R; [reflexivity| |rewrite (v_rd s I R) in Cn; discriminate]. pose proof (X EPut eq_refl) as E. cbn [step] in E. rewrite R, Ch in E.
    destruct (Nat.ltb_spec (@length (nat * N) []) cap); [discriminate|cbn in *; lia]. }
  assert (D : dn s = []).
  { pose proof (X ERead eq_refl) as E. cbn [step] in E. rewrite R in E. destruct (dn s) as [|[] r]; [reflexivity|..]; exfalso.
    - destruct (find_call id0 (calls s)); discriminate.
    - destruct (_ <? _); discriminate.
    - discriminate. }
  assert (T : forall k t, nth_error (threads s) k = Some t -> t = TIdle).
  { intros k [|id' m|id' m st] Tk; [reflexivity|..].
    - pose proof (X (EEnd k 0%N) eq_refl) as E. cbn [step] in E. rewrite Tk in E. discriminate.
    - pose proof (X (EReply k) eq_refl) as E. cbn [step] in E. rewrite Tk in E. discriminate. }
  assert (U : up s = []).
  { destruct (nth_error (threads s) 0) as [t|] eqn:T0; [|apply nth_error_None in T0; lia]. pose proof (T _ _ T0) as ->.
    pose proof (X (ETake 0) eq_refl) as E. cbn [step] in E. rewrite T0 in E. destruct (up s) as [|[]]; [reflexivity|discriminate]. }
  destruct W as [W|W].
  - pose proof (X (ESend i) eq_refl) as E. cbn [step] in E. rewrite W, Cn in E. discriminate.
  - pose proof (v_wait s I Cn i id W) as Q. rewrite D, U, !cnt_nil in Q.
    assert (Z : forall f, f TIdle = false -> cnt f (threads s) = 0).
    { intros f F. apply cnt_zero, Forall_forall. intros t It. apply In_nth_error in It as (k & Tk). now rewrite (T _ _ Tk). }
    rewrite !Z in Q by reflexivity. lia.
Qed.
Lemma all_status s : inv s -> conn s = true -> (forall i, ~ waiting s i) -> forall i, i < length (callers s) -> exists st, returned s i (Status st).
Proof.
  intros I Cn W i L. destruct (nth_error (callers s) i) as [c|] eqn:Ci; [|apply nth_error_None in Ci; lia]. destruct c as [id|id|[st|]].
  - destruct (W i). exists id. now left.
  - destruct (W i). exists id. now right.
  - now exists st.
  - now destruct (v_ok s I Cn i).
Qed.

(* --- states that keep a caller waiting --------------------------------------- *)
Lemma ended_step cap s e s' i id : rd s = REnd -> nth_error (callers s) i = Some (CWait id) -> step cap s e = Some s' -> rd s' = REnd /\ nth_error (callers s') i = Some (CWait id).
Proof.
  intros R W E. assert (Nl : i < length (callers s)) by (apply nth_error_Some; congruence). destruct e; cbn [step] in E; try (rewrite R in E; discriminate).
  - injection E as <-. cbn. now rewrite nth_error_app1.
  - destruct (nth_error (callers s) i0) as [[]|] eqn:C; try discriminate. destruct (conn s); [|discriminate]. injection E as <-. split; [assumption|]. cbn [callers].
    rewrite nth_set. destruct (Nat.eqb_spec i i0) as [->|]; [congruence|assumption].
  - destruct (nth_error (callers s) i0) as [[]|] eqn:C; try discriminate. injection E as <-. split; [assumption|]. cbn [callers].
    rewrite nth_set. destruct (Nat.eqb_spec i i0) as [->|]; [congruence|assumption].
  - destruct (nth_error (threads s) k) as [[]|]; try discriminate. destruct (up s) as [|[]]; [discriminate|]. now injection E as <-.
  - destruct (nth_error (threads s) k) as [[]|]; try discriminate. now injection E as <-.
  - now injection E as <-.
  - destruct (nth_error (threads s) k) as [[]|]; try discriminate. now injection E as <-.
  - destruct (nth_error (threads s) k) as [[]|]; try discriminate. now injection E as <-.
  - destruct (chan s); [discriminate|]. now injection E as <-.
  - now injection E as <-.
Qed.
Lemma ended_run cap es : forall s s' i id, rd s = REnd -> nth_error (callers s) i = Some (CWait id) -> run cap s es = Some s' -> nth_error (callers s') i = Some (CWait id).
Proof.
  induction es as [|e es IH]; cbn; intros s s' i id R W H; [now injection H as <-|]. destruct (step cap s e) as [s1|] eqn:E; [|discriminate].
  destruct (ended_step _ _ _ _ _ _ R W E) as [R1 W1]. eapply IH; eassumption.
Qed.
Definition no_take (e : event) : Prop := e <> ETakeOut.
Lemma full_step cap s e s' i id m x : rd s = RPut m x -> cap <= length (chan s) -> nth_error (callers s) i = Some (CWait id) -> no_take e -> step cap s e = Some s' ->
  rd s' = RPut m x /\ cap <= length (chan s') /\ nth_error (callers s') i = Some (CWait id).
Proof.
  intros R F W Nt E. assert (Nl : i < length (callers s)) by (apply nth_error_Some; congruence). destruct e; cbn [step] in E.
  - injection E as <-. cbn. now rewrite nth_error_app1.
  - destruct (nth_error (callers s) i0) as [[]|] eqn:C; try discriminate. destruct (conn s); [|discriminate]. injection E as <-. split; [assumption|]. split; [assumption|]. cbn [callers].
    rewrite nth_set. destruct (Nat.eqb_spec i i0) as [->|]; [congruence|assumption].
  - destruct (nth_error (callers s) i0) as [[]|] eqn:C; try discriminate. injection E as <-. split; [assumption|]. split; [assumption|]. cbn [callers].
    rewrite nth_set. destruct (Nat.eqb_spec i i0) as [->|]; [congruence|assumption].
  - destruct (nth_error (threads s) k) as [[]|]; try discriminate. destruct (up s) as [|[]]; [discriminate|]. now injection E as <-.
  - destruct (nth_error (threads s) k) as [[]|]; try discriminate. now injection E as <-.
  - now injection E as <-.
  - destruct (nth_error (threads s) k) as [[]|]; try discriminate. now injection E as <-.
  - destruct (nth_error (threads s) k) as [[]|]; try discriminate. now injection E as <-.
  - rewrite R in E. discriminate.
  - rewrite R in E. destruct (Nat.ltb_spec (length (chan s)) cap); [lia|discriminate].
  - rewrite R in E. discriminate.
  - now destruct Nt.
  - now injection E as <-.
Qed.
Lemma full_run cap es : forall s s' i id m x, rd s = RPut m x -> cap <= length (chan s) -> nth_error (callers s) i = Some (CWait id) -> Forall no_take es -> run cap s es = Some s' ->
  nth_error (callers s') i = Some (CWait id).
Proof.
  induction es as [|e es IH]; cbn; intros s s' i id m x R F W Nt H; [now injection H as <-|]. apply Forall_cons_iff in Nt as [Ne Nt]. destruct (step cap s e) as [s1|] eqn:E; [|discriminate].
  destruct (full_step _ _ _ _ _ _ _ _ R F W Ne E) as (R1 & F1 & W1). eapply IH; eassumption.
Qed.
