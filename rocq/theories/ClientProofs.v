From Coq Require Import Permutation.
From Verif Require Import Client ClientSpec Hist HistSpec.

Lemma nodup_apart {X} (a b : list X) x : NoDup (a ++ b) -> In x a -> In x b -> False.
Proof.
  induction a as [|y a IH]; cbn; intros H Ha Hb; [contradiction|]. apply NoDup_cons_iff in H as [H1 H2]. rewrite in_app_iff in H1.
  destruct Ha as [->|Ha]; tauto.
Qed.
Lemma nodup_l {X} (a b : list X) : NoDup (a ++ b) -> NoDup a.
Proof.
  induction a as [|y a IH]; cbn; intros H; [constructor|]. apply NoDup_cons_iff in H as [H1 H2]. rewrite in_app_iff in H1. constructor; auto.
Qed.
Lemma nodup_r {X} (a b : list X) : NoDup (a ++ b) -> NoDup b.
Proof. induction a as [|y a IH]; cbn; intros H; [assumption|]. apply NoDup_cons_iff in H as [H1 H2]. auto. Qed.

Section P.
Context {A : Type}.
Implicit Types s : manager A.

Lemma find_drop_same id (l : list (N * client A)) : find_client id (drop_client id l) = None.
Proof.
  induction l as [|[i c] l IH]; [reflexivity|]. cbn. destruct (i =? id) eqn:E; cbn; [assumption|]. now rewrite E.
Qed.
Lemma find_drop_other id id' (l : list (N * client A)) : id <> id' -> find_client id (drop_client id' l) = find_client id l.
Proof.
  intros Hn. induction l as [|[i c] l IH]; [reflexivity|]. cbn. destruct (i =? id') eqn:E; cbn.
  - apply N.eqb_eq in E. subst i. replace (id' =? id) with false by lia. assumption.
  - destruct (i =? id); auto.
Qed.
Lemma in_remove_nth {X} (x : X) n l : In x (remove_nth n l) -> In x l.
Proof. revert n; induction l as [|y l IH]; intros [|n]; cbn; auto. intros [->|H]; eauto. Qed.

(* lookups follow the history *)
Lemma current_one s o s' r id : cstep s o = Ret (s', r) -> find_client id (c_clients s') = current id [o] [r] (find_client id (c_clients s)).
Proof.
  intros E. destruct o as [auth ok|info ok|info|i ok|i|j|j]; cbn [cstep] in E.
  - destruct ok; injection E as <- <-; reflexivity.
  - destruct ok; injection E as <- <-; reflexivity.
  - injection E as <- <-; reflexivity.
  - destruct (nth_error (c_pending s) i) as [[]|]; try (injection E as <- <-; reflexivity). destruct ok; injection E as <- <-; reflexivity.
  - destruct (nth_error (c_pending s) i) as [[]|]; injection E as <- <-; try reflexivity. cbn [c_clients find_client current].
    destruct (id0 =? id) eqn:Ei; [reflexivity|]. apply find_drop_other. lia.
  - injection E as <- <-; reflexivity.
  - cbn [current]. destruct (find_client j (c_clients s)) eqn:Ef; injection E as <- <-; cbn [c_clients]; destruct (j =? id) eqn:Ej; try reflexivity.
    + apply N.eqb_eq in Ej. subst j. apply find_drop_same.
    + apply find_drop_other. lia.
    + apply N.eqb_eq in Ej. now subst j.
Qed.
Lemma current_cons id o (h : list (cop A)) r rs cur : current id (o :: h) (r :: rs) cur = current id h rs (current id [o] [r] cur).
Proof. destruct o, r; reflexivity. Qed.
Lemma current_exec h : forall s s' rs id, exec cstep s h = Ret (s', rs) -> find_client id (c_clients s') = current id h rs (find_client id (c_clients s)).
Proof.
  induction h as [|o h IH]; intros s s' rs id E; cbn in E; [injection E as <- <-; reflexivity|].
  destruct (cstep s o) as [[s1 r]|] eqn:E1; [|discriminate]. destruct (exec cstep s1 h) as [[s2 rs2]|] eqn:E2; [|discriminate].
  injection E as <- <-. rewrite (IH _ _ _ id E2), (current_one _ _ _ _ id E1), (current_cons id o h). reflexivity.
Qed.
Lemma exec_total h : forall s, exists s' rs, exec (@cstep A) s h = Ret (s', rs).
Proof.
  induction h as [|o h IH]; intros s; [cbn; eauto|]. cbn.
  assert (E : exists s1 r, cstep s o = Ret (s1, r)).
  { destruct o as [auth ok|info ok|info|i ok|i|j|j]; cbn [cstep]; try (destruct ok); try (destruct (nth_error (c_pending s) i) as [[]|]); try (destruct (find_client j (c_clients s))); eauto. }
  destruct E as [s1 [r ->]]. destruct (IH s1) as [s2 [rs ->]]. eauto.
Qed.

(* ids still to be handed out by threads *)
Definition pend_ids (l : list (pending A)) : list N := flat_map (fun p => match p with PNew _ id _ _ => [id] | _ => [] end) l.
Definition ids_ok (used : list N) (next : N) (l : list (pending A)) : Prop :=
  NoDup (used ++ pend_ids l) /\ 0 < next /\ (forall id, In id (used ++ pend_ids l) -> 0 < id < next).
Lemma pids_nth (l : list (pending A)) : forall i auth id k a, nth_error l i = Some (PNew auth id k a) ->
  exists l1 l2, pend_ids l = l1 ++ id :: l2 /\ pend_ids (remove_nth i l) = l1 ++ l2.
Proof.
  induction l as [|p l IH]; intros [|i] auth id k a E; try discriminate.
  - injection E as ->. exists [], (pend_ids l). split; reflexivity.
  - cbn in E. destruct (IH i auth id k a E) as [l1 [l2 [E1 E2]]]. unfold pend_ids in *. cbn [flat_map remove_nth]. rewrite E1, E2.
    exists (pend_ids [p] ++ l1), l2. unfold pend_ids. cbn [flat_map]. rewrite app_nil_r, <- !app_assoc. split; reflexivity.
Qed.
Lemma pids_nth_other (l : list (pending A)) : forall i, match nth_error l i with Some (PNew _ _ _ _) => False | _ => True end ->
  pend_ids (remove_nth i l) = pend_ids l.
Proof.
  induction l as [|p l IH]; intros [|i] H; cbn in *; try reflexivity; [destruct p; [contradiction|reflexivity..]|].
  unfold pend_ids in *. cbn [flat_map]. now rewrite IH.
Qed.
Lemma ids_step s o s' r used : ids_ok used (c_next s) (c_pending s) -> (opens o = true -> c_next s + 1 < 2 ^ 64) -> cstep s o = Ret (s', r) ->
  ids_ok (used ++ ids [r]) (c_next s') (c_pending s') /\ c_next s' = c_next s + (if opens o then 1 else 0).
Proof.
  intros [Hnd [H0 Hb]] Hov E. unfold ids_ok.
  assert (Hsame : forall l, pend_ids l = pend_ids (c_pending s) -> (NoDup ((used ++ []) ++ pend_ids l) /\ 0 < c_next s /\
     (forall id, In id ((used ++ []) ++ pend_ids l) -> 0 < id < c_next s)) /\ c_next s = c_next s + 0).
  { intros l ->. rewrite app_nil_r, N.add_0_r. auto. }
  destruct o as [auth ok|info ok|info|i ok|i|j|j]; cbn [cstep opens] in *.
  - specialize (Hov eq_refl). assert (Hm : next_id (c_next s) = c_next s + 1) by (now apply N.mod_small).
    rewrite Hm in E. destruct ok; injection E as <- <-; cbn [c_next c_pending app ids flat_map]; rewrite app_nil_r; (split; [|reflexivity]).
    + unfold pend_ids. cbn [flat_map app]. fold (pend_ids (c_pending s)). split; [|split; [lia|]].
      * apply (NoDup_Add (a := c_next s) (l := used ++ pend_ids (c_pending s))); [apply Add_app|]. split; [assumption|]. intros Hi. apply Hb in Hi. lia.
      * intros id Hi. rewrite in_app_iff in Hi. cbn [In] in Hi.
        destruct Hi as [Hi|[<-|Hi]]; [pose proof (Hb id ltac:(rewrite in_app_iff; auto)); lia|lia|pose proof (Hb id ltac:(rewrite in_app_iff; auto)); lia].
    + split; [assumption|]. split; [lia|]. intros id Hi. apply Hb in Hi. lia.
  - destruct ok; injection E as <- <-; cbn [c_next c_pending app ids flat_map]; apply Hsame; reflexivity.
  - injection E as <- <-. apply Hsame; reflexivity.
  - assert (Hrem : match nth_error (c_pending s) i with Some (PRefreshArgs _ _) => pend_ids (remove_nth i (c_pending s)) = pend_ids (c_pending s) | _ => True end).
    { destruct (nth_error (c_pending s) i) as [[]|] eqn:En; auto. apply pids_nth_other. now rewrite En. }
    destruct (nth_error (c_pending s) i) as [[]|]; try (injection E as <- <-; apply Hsame; reflexivity).
    destruct ok; injection E as <- <-; cbn [c_next c_pending app ids flat_map]; apply Hsame; [cbn|]; exact Hrem.
  - destruct (nth_error (c_pending s) i) as [[auth id k a|k a|k a|k a]|] eqn:En; injection E as <- <-; cbn [c_next c_pending app ids flat_map];
      try (apply Hsame; first [reflexivity|apply pids_nth_other; now rewrite En]).
    destruct (pids_nth _ _ _ _ _ _ En) as [l1 [l2 [E1 E2]]]. rewrite E1 in Hnd, Hb. rewrite E2. split; [|lia]. split; [|split; [assumption|]].
    + rewrite <- app_assoc. cbn [app]. rewrite app_assoc in Hnd. apply NoDup_remove in Hnd as [H3 H4]. rewrite <- app_assoc in H3, H4.
      apply (NoDup_Add (a := id) (l := used ++ l1 ++ l2)); [apply Add_app|]. split; assumption.
    + intros x Hi. apply Hb. rewrite !in_app_iff in *. cbn [In] in *. tauto.
  - injection E as <- <-. apply Hsame; reflexivity.
  - destruct (find_client j (c_clients s)); injection E as <- <-; apply Hsame; reflexivity.
Qed.
Lemma ids_app (a b : list (cres A)) : ids (a ++ b) = ids a ++ ids b.
Proof. apply flat_map_app. Qed.
Lemma ids_exec h : forall s s' rs used, ids_ok used (c_next s) (c_pending s) -> c_next s + count opens h < 2 ^ 64 ->
  exec cstep s h = Ret (s', rs) -> ids_ok (used ++ ids rs) (c_next s') (c_pending s').
Proof.
  induction h as [|o h IH]; intros s s' rs used H Hn E; cbn in E; [injection E as <- <-; cbn; now rewrite app_nil_r|].
  destruct (cstep s o) as [[s1 r]|] eqn:E1; [|discriminate]. destruct (exec cstep s1 h) as [[s2 rs2]|] eqn:E2; [|discriminate].
  injection E as <- <-. rewrite count_cons in Hn.
  destruct (ids_step s o s1 r used H) as [H1 H2]; [intros Ho; rewrite Ho in Hn; lia|assumption|].
  change (r :: rs2) with ([r] ++ rs2). rewrite ids_app, app_assoc. apply (IH s1); auto. rewrite H2. lia.
Qed.
Lemma ids_start : ids_ok [] (c_next (@new_manager A)) (c_pending (@new_manager A)).
Proof. split; [constructor|]. split; [cbn; lia|]. intros id []. Qed.

(* the evidence is always for the key it stands next to *)
Definition matches (k : N) (a : option (attestation A)) : Prop := match a with Some x => at_key x = k | None => True end.
Definition pend_ok (p : pending A) : Prop :=
  match p with PNew _ _ k a => matches k a | PRotate k a | PRefresh k a => at_key a = k | PRefreshArgs _ _ => True end.
Definition keys_ok s : Prop := matches (c_key s) (c_att s) /\ Forall pend_ok (c_pending s) /\ Forall (fun p => matches (cl_key (snd p)) (cl_att (snd p))) (c_clients s).
Lemma forall_remove {X} (P : X -> Prop) i l : Forall P l -> Forall P (remove_nth i l).
Proof. rewrite !Forall_forall. intros H x Hx. apply H. now apply in_remove_nth in Hx. Qed.
Lemma forall_drop (P : N * client A -> Prop) i l : Forall P l -> Forall P (drop_client i l).
Proof. rewrite !Forall_forall. intros H x Hx. unfold drop_client in Hx. apply filter_In in Hx as [Hx _]. auto. Qed.
Lemma keys_step s o s' r : keys_ok s -> cstep s o = Ret (s', r) -> keys_ok s' /\ (forall id c, r = CrNew id c -> matches (cl_key c) (cl_att c)).
Proof.
  intros [H1 [H2 H3]] E. unfold keys_ok.
  destruct o as [auth ok|info ok|info|i ok|i|j|j]; cbn [cstep] in E.
  - destruct ok; injection E as <- <-; cbn [c_key c_att c_pending c_clients app]; (split; [|discriminate]); repeat split; auto.
  - destruct ok; injection E as <- <-; cbn [c_key c_att c_pending c_clients app]; (split; [|discriminate]); repeat split; auto. constructor; [reflexivity|assumption].
  - injection E as <- <-; cbn [c_key c_att c_pending c_clients]; (split; [|discriminate]); repeat split; auto. constructor; [exact I|assumption].
  - destruct (nth_error (c_pending s) i) as [[]|] eqn:En; try (injection E as <- <-; split; [auto|discriminate]).
    destruct ok; injection E as <- <-; cbn [c_key c_att c_pending c_clients]; (split; [|discriminate]); repeat split; auto using forall_remove.
    constructor; [reflexivity|auto using forall_remove].
  - destruct (nth_error (c_pending s) i) as [p|] eqn:En; [|injection E as <- <-; split; [auto|discriminate]].
    assert (Hp : pend_ok p) by (rewrite Forall_forall in H2; apply H2; eapply nth_error_In; eauto).
    destruct p; injection E as <- <-; cbn [c_key c_att c_pending c_clients]; (split; [|try discriminate]); repeat split; auto using forall_remove.
    + constructor; [exact Hp|now apply forall_drop].
    + intros id0 c [= <- <-]. exact Hp.
  - injection E as <- <-; split; [auto|discriminate].
  - destruct (find_client j (c_clients s)); injection E as <- <-; (split; [|discriminate]); repeat split; cbn; auto using forall_drop.
Qed.
Lemma keys_exec h : forall s s' rs, keys_ok s -> exec cstep s h = Ret (s', rs) ->
  keys_ok s' /\ (forall id c, In (CrNew id c) rs -> matches (cl_key c) (cl_att c)).
Proof.
  induction h as [|o h IH]; intros s s' rs H E; cbn in E; [injection E as <- <-; split; [assumption|intros id c []]|].
  destruct (cstep s o) as [[s1 r]|] eqn:E1; [|discriminate]. destruct (exec cstep s1 h) as [[s2 rs2]|] eqn:E2; [|discriminate].
  injection E as <- <-. destruct (keys_step _ _ _ _ H E1) as [H1 Hr]. destruct (IH _ _ _ H1 E2) as [H2 Hs]. split; [assumption|].
  intros id c [->|Hi]; eauto.
Qed.

(* what a connection is made with is what was in force when it was opened *)
Lemma in_force_app (a b : list (cres A)) : forall cur, in_force (a ++ b) cur = in_force b (in_force a cur).
Proof. induction a as [|r a IH]; intros cur; [reflexivity|]. destruct r; cbn; auto. Qed.
Definition made_at (rs : list (cres A)) (id k : N) (a : option (attestation A)) : Prop :=
  exists rs1 rs2, rs = rs1 ++ CrOpening id :: rs2 /\ a = in_force rs1 None /\ k = match a with Some x => at_key x | None => 0 end.
Lemma made_at_more rs x id k a : made_at rs id k a -> made_at (rs ++ x) id k a.
Proof. intros [r1 [r2 [-> H]]]. exists r1, (r2 ++ x). rewrite <- app_assoc. split; [reflexivity|assumption]. Qed.
Definition force_ok (rs : list (cres A)) s : Prop :=
  c_att s = in_force rs None /\ c_key s = match c_att s with Some x => at_key x | None => 0 end /\
  Forall (fun p => match p with PNew _ id k a => made_at rs id k a | PRotate k a | PRefresh k a => at_key a = k | _ => True end) (c_pending s) /\
  (forall id c, In (CrNew id c) rs -> made_at rs id (cl_key c) (cl_att c)).
Lemma force_step rs s o s' r : force_ok rs s -> cstep s o = Ret (s', r) -> force_ok (rs ++ [r]) s'.
Proof.
  intros [H1 [H2 [H3 H4]]] E. unfold force_ok. rewrite in_force_app, <- H1.
  assert (H3' : Forall (fun p => match p with PNew _ id k a => made_at (rs ++ [r]) id k a | PRotate k a | PRefresh k a => at_key a = k | _ => True end) (c_pending s)).
  { rewrite Forall_forall in *. intros p Hp. specialize (H3 p Hp). destruct p; auto using made_at_more. }
  assert (H4' : (forall id c, r <> CrNew id c) -> forall id c, In (CrNew id c) (rs ++ [r]) -> made_at (rs ++ [r]) id (cl_key c) (cl_att c)).
  { intros Hr id c Hi. apply in_app_or in Hi as [Hi|[->|[]]]; [apply made_at_more; auto|]. now destruct (Hr id c). }
  destruct o as [auth ok|info ok|info|i ok|i|j|j]; cbn [cstep] in E.
  - destruct ok; injection E as <- <-; cbn [c_att c_key c_pending app in_force]; (split; [reflexivity|]); (split; [assumption|]); (split; [|apply H4'; discriminate]); auto.
    constructor; [|assumption]. exists rs, []. auto.
  - destruct ok; injection E as <- <-; cbn [c_att c_key c_pending app in_force]; (split; [reflexivity|]); (split; [assumption|]); (split; [|apply H4'; discriminate]); auto.
  - injection E as <- <-; cbn [c_att c_key c_pending app in_force]; (split; [reflexivity|]); (split; [assumption|]); (split; [|apply H4'; discriminate]); auto.
  - destruct (nth_error (c_pending s) i) as [[]|] eqn:En; try (injection E as <- <-; cbn [in_force]; (split; [reflexivity|]); (split; [assumption|]); (split; [assumption|apply H4'; discriminate])).
    destruct ok; injection E as <- <-; cbn [c_att c_key c_pending app in_force]; (split; [reflexivity|]); (split; [assumption|]); (split; [|apply H4'; discriminate]); auto using forall_remove.
  - destruct (nth_error (c_pending s) i) as [p|] eqn:En; [|injection E as <- <-; cbn [in_force]; (split; [reflexivity|]); (split; [assumption|]); (split; [assumption|apply H4'; discriminate])].
    assert (Hp := proj1 (Forall_forall _ _) H3' p (nth_error_In _ _ En)). cbv beta in Hp.
    destruct p as [auth id k a|k a|k info|k a]; injection E as <- <-; cbn [c_att c_key c_pending app in_force]; (split; [reflexivity|]); auto using forall_remove.
    + split; [assumption|]. split; [now apply forall_remove|]. intros id0 c Hi. apply in_app_or in Hi as [Hi|[Hi|[]]]; [apply made_at_more; auto|].
      injection Hi as <- <-. exact Hp.
    + split; [now rewrite Hp|]. split; [now apply forall_remove|apply H4'; discriminate].
    + split; [assumption|]. split; [assumption|apply H4'; discriminate].
    + split; [now rewrite Hp|]. split; [now apply forall_remove|apply H4'; discriminate].
  - injection E as <- <-; cbn [in_force]; (split; [reflexivity|]); (split; [assumption|]); (split; [assumption|apply H4'; discriminate]).
  - destruct (find_client j (c_clients s)); injection E as <- <-; cbn [c_att c_key c_pending in_force]; (split; [reflexivity|]); (split; [assumption|]); (split; [assumption|apply H4'; discriminate]).
Qed.
Lemma force_exec h : forall rs0 s s' rs, force_ok rs0 s -> exec cstep s h = Ret (s', rs) -> force_ok (rs0 ++ rs) s'.
Proof.
  induction h as [|o h IH]; intros rs0 s s' rs H E; cbn in E; [injection E as <- <-; now rewrite app_nil_r|].
  destruct (cstep s o) as [[s1 r]|] eqn:E1; [|discriminate]. destruct (exec cstep s1 h) as [[s2 rs2]|] eqn:E2; [|discriminate].
  injection E as <- <-. change (r :: rs2) with ([r] ++ rs2). rewrite app_assoc. eapply IH; [|exact E2]. eapply force_step; eauto.
Qed.
Lemma force_start : force_ok [] (@new_manager A).
Proof. split; [reflexivity|]. split; [reflexivity|]. split; [constructor|intros id c []]. Qed.

(* one at a time: keys only move on *)
Definition is_att (p : pending A) : bool := match p with PNew _ _ _ _ => false | _ => true end.
Definition att_pend s := filter is_att (c_pending s).
Definition busy_ok (busy : bool) s : Prop :=
  c_key s < c_keys s /\
  match att_pend s with
  | [] => True
  | [p] => busy = true /\ match p with PRotate k a => at_key a = k /\ c_key s <= k < c_keys s | PRefresh k a => at_key a = k /\ k = c_key s | PRefreshArgs k _ => k = c_key s | _ => True end
  | _ => False
  end.
Lemma att_remove (l : list (pending A)) : forall i p, nth_error l i = Some p ->
  if is_att p then exists a b, filter is_att l = a ++ p :: b /\ filter is_att (remove_nth i l) = a ++ b else filter is_att (remove_nth i l) = filter is_att l.
Proof.
  induction l as [|q l IH]; intros [|i] p E; try discriminate; cbn in E.
  - injection E as ->. cbn [filter remove_nth]. destruct (is_att p) eqn:Ep; [|reflexivity]. exists [], (filter is_att l). auto.
  - specialize (IH i p E). cbn [filter remove_nth]. destruct (is_att p).
    + destruct IH as [a [b [E1 E2]]]. rewrite E1, E2. destruct (is_att q); [exists (q :: a), b|exists a, b]; auto.
    + now rewrite IH.
Qed.
Definition next_busy (busy : bool) (o : cop A) (r : cres A) : bool :=
  match o, r with
  | CRotate _ _, CrStarted => true | CRotate _ _, _ => false
  | CRefresh _, _ => true
  | CEvidence _ _, CrErr => false
  | CFinish _, CrAttested _ _ => false
  | _, _ => busy
  end.
Definition starts (o : cop A) : bool := match o with CRotate _ _ | CRefresh _ => true | _ => false end.
Lemma serial_cons busy o (h : list (cop A)) r rs : serial busy (o :: h) (r :: rs) = ((if starts o then negb busy else true) && serial (next_busy busy o r) h rs)%bool.
Proof. destruct o, r; try reflexivity; cbn; now rewrite ?Bool.andb_true_r. Qed.
Lemma busy_step busy s o s' r : busy_ok busy s -> (starts o = true -> busy = false) -> cstep s o = Ret (s', r) ->
  busy_ok (next_busy busy o r) s' /\ c_key s <= c_key s' /\
  (forall rot a, r = CrAttested rot a -> c_key s' = at_key a).
Proof.
  intros [H1 H2] Hs E. unfold busy_ok, att_pend in *.
  assert (Hsame : forall l, filter is_att l = filter is_att (c_pending s) -> forall r0 : cres A, (forall rot a, r0 <> CrAttested rot a) ->
    (c_key s < c_keys s /\ match filter is_att l with [] => True | [p] => busy = true /\ match p with PRotate k a => at_key a = k /\ c_key s <= k < c_keys s | PRefresh k a => at_key a = k /\ k = c_key s | PRefreshArgs k _ => k = c_key s | _ => True end | _ => False end) /\
    c_key s <= c_key s /\ (forall rot a, r0 = CrAttested rot a -> c_key s = at_key a)).
  { intros l El r0 Hr. rewrite El. split; [auto|]. split; [lia|]. intros rot a Er. now destruct (Hr rot a). }
  destruct o as [auth ok|info ok|info|i ok|i|j|j]; cbn [cstep] in E.
  - destruct ok; injection E as <- <-; cbn [c_key c_keys c_pending app next_busy]; apply Hsame; (reflexivity || discriminate).
  - specialize (Hs eq_refl). subst busy. destruct (filter is_att (c_pending s)) as [|p [|]] eqn:Ef; try contradiction; [|destruct H2; discriminate].
    destruct ok; injection E as <- <-; cbn [c_key c_keys c_pending app next_busy filter is_att]; rewrite Ef; (split; [|split; [lia|discriminate]]); (split; [lia|]); auto.
    split; [reflexivity|]. cbn. split; [reflexivity|lia].
  - specialize (Hs eq_refl). subst busy. destruct (filter is_att (c_pending s)) as [|p [|]] eqn:Ef; try contradiction; [|destruct H2; discriminate].
    injection E as <- <-; cbn [c_key c_keys c_pending app next_busy filter is_att]; rewrite Ef; (split; [|split; [lia|discriminate]]); (split; [lia|]); auto.
  - destruct (nth_error (c_pending s) i) as [p|] eqn:En; [|injection E as <- <-; cbn [next_busy]; apply Hsame; (reflexivity || discriminate)].
    destruct p as [auth id k a|k a|k info|k a]; try (injection E as <- <-; cbn [next_busy]; apply Hsame; (reflexivity || discriminate)).
    pose proof (att_remove _ _ _ En) as Ha. cbn [is_att] in Ha. destruct Ha as [l1 [l2 [Ea Eb]]]. rewrite Ea in H2.
    destruct l1 as [|q [|]]; cbn [app] in H2; try contradiction. destruct l2; try contradiction. destruct H2 as [Hb Hk].
    destruct ok; injection E as <- <-; cbn [c_key c_keys c_pending next_busy filter is_att]; rewrite Eb; cbn [app]; (split; [|split; [lia|discriminate]]); (split; [lia|]); auto.
  - destruct (nth_error (c_pending s) i) as [p|] eqn:En; [|injection E as <- <-; cbn [next_busy]; apply Hsame; (reflexivity || discriminate)].
    pose proof (att_remove _ _ _ En) as Ha.
    destruct p as [auth id k a|k a|k info|k a]; cbn [is_att] in Ha.
    + injection E as <- <-; cbn [c_key c_keys c_pending next_busy]; apply Hsame; (assumption || discriminate).
    + destruct Ha as [l1 [l2 [Ea Eb]]]. rewrite Ea in H2.
      destruct l1 as [|q [|]]; cbn [app] in H2; try contradiction. destruct l2; try contradiction. destruct H2 as [Hb [Hk1 Hk2]].
      injection E as <- <-; cbn [c_key c_keys c_pending next_busy]; rewrite Eb; cbn [app]. split; [split; [lia|auto]|]. split; [lia|]. intros rot b [= <- <-]. auto.
    + injection E as <- <-; cbn [next_busy]; apply Hsame; (reflexivity || discriminate).
    + destruct Ha as [l1 [l2 [Ea Eb]]]. rewrite Ea in H2.
      destruct l1 as [|q [|]]; cbn [app] in H2; try contradiction. destruct l2; try contradiction. destruct H2 as [Hb [Hk1 Hk2]].
      injection E as <- <-; cbn [c_key c_keys c_pending next_busy]; rewrite Eb; cbn [app]. split; [split; [lia|auto]|]. split; [lia|]. intros rot b [= <- <-]. auto.
  - injection E as <- <-; cbn [next_busy]; apply Hsame; (reflexivity || discriminate).
  - destruct (find_client j (c_clients s)); injection E as <- <-; cbn [c_key c_keys c_pending next_busy]; apply Hsame; (reflexivity || discriminate).
Qed.
(* the evidence in force never goes back to an older key *)
Lemma serial_in_force h : forall busy s s' rs rs0, busy_ok busy s -> force_ok rs0 s -> serial busy h rs = true -> exec cstep s h = Ret (s', rs) ->
  forall rs1 rs2, rs = rs1 ++ rs2 -> c_key s <= match in_force rs1 (c_att s) with Some a => at_key a | None => 0 end.
Proof.
  induction h as [|o h IH]; intros busy s s' rs rs0 Hb Hf Hs E rs1 rs2 Er; cbn in E.
  - injection E as <- <-. symmetry in Er. apply app_eq_nil in Er as [-> ->]. cbn. destruct Hf as [_ [Hk _]]. rewrite Hk. lia.
  - destruct (cstep s o) as [[s1 r]|] eqn:E1; [|discriminate]. destruct (exec cstep s1 h) as [[s2 rs3]|] eqn:E2; [|discriminate].
    injection E as <- <-. rewrite serial_cons in Hs. apply andb_prop in Hs as [Hs1 Hs2].
    assert (Hst : starts o = true -> busy = false) by (intros H; rewrite H in Hs1; now destruct busy).
    destruct (busy_step _ _ _ _ _ Hb Hst E1) as [Hb1 [Hle _]]. pose proof (force_step _ _ _ _ _ Hf E1) as Hf1.
    destruct rs1 as [|r' rs1]; [cbn; destruct Hf as [_ [Hk _]]; rewrite Hk; lia|]. injection Er as <- Er.
    pose proof (IH _ _ _ _ _ Hb1 Hf1 Hs2 E2 rs1 rs2 Er) as H.
    assert (Hc : in_force (r :: rs1) (c_att s) = in_force rs1 (c_att s1)).
    { destruct Hf as [Hf _], Hf1 as [Hf1 _]. rewrite Hf1, in_force_app, <- Hf. destruct r; reflexivity. }
    rewrite Hc. lia.
Qed.
Lemma busy_start : busy_ok false (@new_manager A).
Proof. split; [cbn; lia|exact I]. Qed.
Lemma serial_exec h : forall busy s s' rs rs0, busy_ok busy s -> force_ok rs0 s -> serial busy h rs = true -> exec cstep s h = Ret (s', rs) ->
  forall rs1 rot a rs2 rs3, rs = rs1 ++ CrAttested rot a :: rs2 ++ rs3 -> at_key a <= match in_force rs2 (Some a) with Some b => at_key b | None => 0 end.
Proof.
  induction h as [|o h IH]; intros busy s s' rs rs0 Hb Hf Hs E rs1 rot a rs2 rs3 Er; cbn in E.
  - injection E as <- <-. destruct rs1; discriminate.
  - destruct (cstep s o) as [[s1 r]|] eqn:E1; [|discriminate]. destruct (exec cstep s1 h) as [[s2 rs4]|] eqn:E2; [|discriminate].
    injection E as <- <-. rewrite serial_cons in Hs. apply andb_prop in Hs as [Hs1 Hs2].
    assert (Hst : starts o = true -> busy = false) by (intros H; rewrite H in Hs1; now destruct busy).
    destruct (busy_step _ _ _ _ _ Hb Hst E1) as [Hb1 [Hle Hka]]. pose proof (force_step _ _ _ _ _ Hf E1) as Hf1.
    destruct rs1 as [|r' rs1]; injection Er as -> Er; [|eapply (IH _ _ _ _ _ Hb1 Hf1 Hs2 E2); exact Er].
    pose proof (serial_in_force h _ _ _ _ _ Hb1 Hf1 Hs2 E2 rs2 rs3 Er) as H.
    rewrite (Hka rot a eq_refl) in H. destruct Hf1 as [Hf1 _]. rewrite in_force_app in Hf1. cbn [in_force] in Hf1. now rewrite Hf1 in H.
Qed.

Lemma current_kept (h : list (cop A)) id : forall rs cur, none_of (closes id) h -> ~ In id (ids rs) -> current id h rs cur = cur.
Proof.
  induction h as [|o h IH]; intros [|r rs] cur Hc Hi; try (destruct o; reflexivity); [reflexivity|reflexivity|].
  apply none_of_cons in Hc as [Ho Hc]. change (r :: rs) with ([r] ++ rs) in Hi. rewrite ids_app, in_app_iff in Hi.
  rewrite current_cons, IH by tauto. destruct o, r; cbn in *; try reflexivity; try (rewrite Ho; reflexivity);
    match goal with |- (if ?b then _ else _) = _ => destruct b eqn:Eb; [apply N.eqb_eq in Eb; subst; tauto|reflexivity] end.
Qed.
Lemma current_none (h : list (cop A)) id : forall rs, ~ In id (ids rs) -> current id h rs None = None.
Proof.
  induction h as [|o h IH]; intros [|r rs] Hi; try (destruct o; reflexivity); [reflexivity|reflexivity|].
  change (r :: rs) with ([r] ++ rs) in Hi. rewrite ids_app, in_app_iff in Hi.
  rewrite current_cons. replace (current id [o] [r] None) with (@None (client A)); [apply IH; tauto|].
  destruct o, r; cbn in *; try reflexivity;
    match goal with |- _ = (if ?b then _ else _) => destruct b eqn:Eb; [try reflexivity; apply N.eqb_eq in Eb; subst; tauto|reflexivity] end.
Qed.
Lemma current_in (h : list (cop A)) id rs cur : current id h rs cur <> None -> In id (ids rs) \/ cur <> None.
Proof.
  intros H. destruct cur; [right; discriminate|]. left.
  destruct (in_dec N.eq_dec id (ids rs)) as [Hi|Hi]; [assumption|]. destruct H. now apply current_none.
Qed.
Lemma openings_app (a b : list (cres A)) : openings (a ++ b) = openings a ++ openings b.
Proof. apply flat_map_app. Qed.
Lemma opening_step s o s' r : (opens o = true -> c_next s + 1 < 2 ^ 64) -> cstep s o = Ret (s', r) ->
  c_next s' = c_next s + (if opens o then 1 else 0) /\ (openings [r] = [] \/ (openings [r] = [c_next s] /\ opens o = true)).
Proof.
  intros Hov E. destruct o as [auth ok|info ok|info|i ok|i|j|j]; cbn [cstep opens] in *.
  - assert (Hm : next_id (c_next s) = c_next s + 1) by (now apply N.mod_small, Hov). rewrite Hm in E.
    destruct ok; injection E as <- <-; cbn; auto.
  - destruct ok; injection E as <- <-; cbn; split; auto; lia.
  - injection E as <- <-; cbn; split; auto; lia.
  - destruct (nth_error (c_pending s) i) as [[]|]; try (destruct ok); injection E as <- <-; cbn; split; auto; lia.
  - destruct (nth_error (c_pending s) i) as [[]|]; injection E as <- <-; cbn; split; auto; lia.
  - injection E as <- <-; cbn; split; auto; lia.
  - destruct (find_client j (c_clients s)); injection E as <- <-; cbn; split; auto; lia.
Qed.
Lemma openings_exec h : forall s s' rs, c_next s + count opens h < 2 ^ 64 -> exec (@cstep A) s h = Ret (s', rs) ->
  NoDup (openings rs) /\ (forall id, In id (openings rs) -> c_next s <= id).
Proof.
  induction h as [|o h IH]; intros s s' rs Hn E; cbn in E; [injection E as <- <-; split; [constructor|intros id []]|].
  destruct (cstep s o) as [[s1 r]|] eqn:E1; [|discriminate]. destruct (exec cstep s1 h) as [[s2 rs2]|] eqn:E2; [|discriminate].
  injection E as <- <-. rewrite count_cons in Hn.
  destruct (opening_step s o s1 r) as [H1 H2]; [intros Ho; rewrite Ho in Hn; lia|assumption|].
  destruct (IH s1 s2 rs2) as [H3 H4]; [rewrite H1; lia|assumption|].
  change (r :: rs2) with ([r] ++ rs2). rewrite openings_app. destruct H2 as [->|[-> Ho]]; cbn [app].
  - split; [assumption|]. intros id Hi. apply H4 in Hi. lia.
  - rewrite Ho in H1. split; [constructor; [intros Hi; apply H4 in Hi; lia|assumption]|]. intros id [<-|Hi]; [lia|]. apply H4 in Hi. lia.
Qed.
Lemma openings_unique h s rs : exec (@cstep A) new_manager h = Ret (s, rs) -> 1 + count opens h < 2 ^ 64 -> NoDup (openings rs).
Proof. intros E Hn. now destruct (openings_exec h new_manager s rs Hn E). Qed.
Lemma opening_split (rs : list (cres A)) : forall a b id c d, NoDup (openings rs) -> rs = a ++ CrOpening id :: c -> rs = b ++ CrOpening id :: d -> a = b.
Proof.
  induction rs as [|r rs IH]; intros a b id c d Hu Ea Eb; [destruct a; discriminate|].
  change (r :: rs) with ([r] ++ rs) in Hu. rewrite openings_app in Hu.
  destruct a as [|x a], b as [|y b].
  - reflexivity.
  - injection Ea as -> ->. injection Eb as <- Eb. exfalso. subst c. cbn [openings flat_map app] in Hu. apply NoDup_cons_iff in Hu as [Hu _]. apply Hu.
    change (In id (openings (b ++ CrOpening id :: d))). rewrite openings_app, in_app_iff. cbn. auto.
  - injection Eb as -> ->. injection Ea as <- Ea. exfalso. subst d. cbn [openings flat_map app] in Hu. apply NoDup_cons_iff in Hu as [Hu _]. apply Hu.
    change (In id (openings (a ++ CrOpening id :: c))). rewrite openings_app, in_app_iff. cbn. auto.
  - injection Ea as <- Ea. injection Eb as <- Eb. f_equal. apply (IH a b id c d); auto. now apply nodup_r in Hu.
Qed.

(* keys made by rotations that have not taken effect, and keys in use *)
Definition rot_keys (l : list (pending A)) : list N := flat_map (fun p => match p with PRotate _ a => [at_key a] | _ => [] end) l.
Definition ref_keys (l : list (pending A)) : list N :=
  flat_map (fun p => match p with PRefreshArgs k _ => [k] | PRefresh _ a => [at_key a] | _ => [] end) l.
Definition att_keys (rs : list (cres A)) : list N := flat_map (fun r => match r with CrAttested _ a => [at_key a] | _ => [] end) rs.
Record fresh (seen : list N) (s : manager A) : Prop := {
  fr_nd : NoDup (rot_keys (c_pending s));
  fr_rot : forall k, In k (rot_keys (c_pending s)) -> k < c_keys s /\ k <> c_key s /\ ~ In k seen /\ ~ In k (ref_keys (c_pending s));
  fr_key : c_key s < c_keys s;
  fr_seen : forall k, In k seen -> k < c_keys s;
  fr_ref : forall k, In k (ref_keys (c_pending s)) -> k < c_keys s;
  fr_eq : forall k a, In (PRotate k a) (c_pending s) \/ In (PRefresh k a) (c_pending s) -> k = at_key a }.
Lemma remove_nth_perm {X} (x : X) : forall l i, nth_error l i = Some x -> Permutation l (x :: remove_nth i l).
Proof.
  induction l as [|y l IH]; intros [|i] E; try discriminate; cbn in *; [injection E as ->; reflexivity|].
  rewrite (IH i E) at 1. apply perm_swap.
Qed.
Lemma in_rot_remove i l k : In k (rot_keys (remove_nth i l)) -> In k (rot_keys l).
Proof. unfold rot_keys. rewrite !in_flat_map. intros [x [Hx Hk]]. exists x. split; [eapply in_remove_nth; eassumption|assumption]. Qed.
Lemma in_ref_remove i l k : In k (ref_keys (remove_nth i l)) -> In k (ref_keys l).
Proof. unfold ref_keys. rewrite !in_flat_map. intros [x [Hx Hk]]. exists x. split; [eapply in_remove_nth; eassumption|assumption]. Qed.
Lemma rot_split i l x : nth_error l i = Some x -> NoDup (rot_keys l) -> NoDup (rot_keys [x] ++ rot_keys (remove_nth i l)).
Proof.
  intros E H. apply remove_nth_perm in E. eapply Permutation_NoDup; [|exact H]. unfold rot_keys.
  rewrite (Permutation_flat_map _ E). cbn [flat_map]. now rewrite app_nil_r.
Qed.
Lemma fresh_step seen s o s' r : fresh seen s -> cstep s o = Ret (s', r) -> fresh (seen ++ att_keys [r]) s' /\
  forall a, r = CrAttested true a -> ~ In (at_key a) seen.
Proof.
  intros [Hnd Hrot Hkey Hseen Href Heq] E.
  assert (Hsame : fresh (seen ++ []) s) by (rewrite app_nil_r; constructor; assumption).
  destruct o as [auth ok|info ok|info|i ok|i|j|j]; cbn [cstep] in E.
  - destruct ok; injection E as <- <-; cbn [att_keys flat_map]; rewrite app_nil_r; (split; [|discriminate]); constructor; cbn [c_pending c_keys c_key app]; auto.
    intros k a [[H|H]|[H|H]]; try discriminate; eauto.
  - destruct ok; injection E as <- <-; cbn [att_keys flat_map]; rewrite app_nil_r; (split; [|discriminate]); constructor; cbn [c_pending c_keys c_key app].
    + cbn. constructor; [|assumption]. intros H. apply Hrot in H. lia.
    + cbn. intros k [<-|H].
      * split; [lia|]. split; [lia|]. split; intros H; [apply Hseen in H|apply Href in H]; lia.
      * destruct (Hrot k H) as [H1 H2]. split; [lia|exact H2].
    + lia.
    + intros k H. apply Hseen in H. lia.
    + cbn. intros k H. apply Href in H. lia.
    + intros k a [[H|H]|[H|H]]; try discriminate; [injection H as <- <-; reflexivity|eauto|eauto].
    + assumption.
    + intros k H. destruct (Hrot k H) as [H1 H2]. split; [lia|exact H2].
    + lia.
    + intros k H. apply Hseen in H. lia.
    + intros k H. apply Href in H. lia.
    + assumption.
  - injection E as <- <-. cbn [att_keys flat_map]; rewrite app_nil_r; (split; [|discriminate]). constructor; cbn [c_pending c_keys c_key].
    + assumption.
    + cbn. intros k H. destruct (Hrot k H) as [H1 [H2 [H3 H4]]]. repeat split; auto. intros [H5|H5]; [now destruct H2|contradiction].
    + assumption.
    + assumption.
    + cbn. intros k [<-|H]; auto.
    + intros k a [[H|H]|[H|H]]; try discriminate; eauto.
  - destruct (nth_error (c_pending s) i) as [[| |key info|]|] eqn:En; try (injection E as <- <-; split; [exact Hsame|discriminate]).
    pose proof (rot_split _ _ _ En Hnd) as Hnd'. cbn in Hnd'.
    assert (Hk : In key (ref_keys (c_pending s))).
    { apply in_flat_map. eexists. split; [eapply nth_error_In; exact En|]. left; reflexivity. }
    destruct ok; injection E as <- <-; cbn [att_keys flat_map]; rewrite app_nil_r; (split; [|discriminate]); constructor; cbn [c_pending c_keys c_key]; try assumption.
    + cbn. intros k H. destruct (Hrot k (in_rot_remove _ _ _ H)) as [H1 [H2 [H3 H4]]]. repeat split; auto. intros [H5|H5]; [subst; auto|]. apply in_ref_remove in H5. auto.
    + cbn. intros k [<-|H]; [auto|]. apply in_ref_remove in H. auto.
    + intros k a [[H|H]|[H|H]]; try discriminate; [|injection H as <- <-; reflexivity|]; apply in_remove_nth in H; eauto.
    + intros k H. destruct (Hrot k (in_rot_remove _ _ _ H)) as [H1 [H2 [H3 H4]]]. repeat split; auto. intros H5. apply in_ref_remove in H5. auto.
    + intros k H. apply in_ref_remove in H. auto.
    + intros k a [H|H]; apply in_remove_nth in H; eauto.
  - destruct (nth_error (c_pending s) i) as [[auth id k0 at0|key att|key info|key att]|] eqn:En;
      try (injection E as <- <-; split; [exact Hsame|discriminate]);
      pose proof (rot_split _ _ _ En Hnd) as Hnd'; cbn in Hnd'; injection E as <- <-; cbn [att_keys flat_map app].
    + rewrite app_nil_r. split; [|discriminate]. constructor; cbn [c_pending c_keys c_key]; try assumption.
      * intros k H. destruct (Hrot k (in_rot_remove _ _ _ H)) as [H1 [H2 [H3 H4]]]. repeat split; auto. intros H5. apply in_ref_remove in H5. auto.
      * intros k H. apply in_ref_remove in H. auto.
      * intros k a [H|H]; apply in_remove_nth in H; eauto.
    + assert (Ek : key = at_key att) by (apply Heq; left; eapply nth_error_In; exact En). subst key.
      assert (Hk : In (at_key att) (rot_keys (c_pending s))).
      { apply in_flat_map. eexists. split; [eapply nth_error_In; exact En|]. left; reflexivity. }
      destruct (Hrot _ Hk) as [K1 [K2 [K3 K4]]]. split.
      2:{ intros a Ha. injection Ha as <-. exact K3. }
      apply NoDup_cons_iff in Hnd' as [N1 N2]. constructor; cbn [c_pending c_keys c_key]; try assumption.
      * intros k H. destruct (Hrot k (in_rot_remove _ _ _ H)) as [H1 [H2 [H3 H4]]].
        assert (k <> at_key att) by (intros ->; auto). repeat split; auto.
        { rewrite in_app_iff. cbn. intros [H5|[H5|[]]]; auto. }
        { intros H5. apply in_ref_remove in H5. auto. }
      * intros k H. apply in_app_iff in H. destruct H as [H|[<-|[]]]; auto.
      * intros k H. apply in_ref_remove in H. auto.
      * intros k a [H|H]; apply in_remove_nth in H; eauto.
    + assert (Ek : key = at_key att) by (apply Heq; right; eapply nth_error_In; exact En). subst key.
      assert (Hk : In (at_key att) (ref_keys (c_pending s))).
      { apply in_flat_map. eexists. split; [eapply nth_error_In; exact En|]. left; reflexivity. }
      split; [|discriminate]. constructor; cbn [c_pending c_keys c_key]; try assumption.
      * intros k H. destruct (Hrot k (in_rot_remove _ _ _ H)) as [H1 [H2 [H3 H4]]].
        assert (k <> at_key att) by (intros ->; auto). repeat split; auto.
        { rewrite in_app_iff. cbn. intros [H5|[H5|[]]]; auto. }
        { intros H5. apply in_ref_remove in H5. auto. }
      * auto.
      * intros k H. apply in_app_iff in H. destruct H as [H|[<-|[]]]; auto.
      * intros k H. apply in_ref_remove in H. auto.
      * intros k a [H|H]; apply in_remove_nth in H; eauto.
  - injection E as <- <-; split; [exact Hsame|discriminate].
  - destruct (find_client j (c_clients s)); injection E as <- <-; (split; [|discriminate]); [|exact Hsame].
    cbn [att_keys flat_map]. rewrite app_nil_r. constructor; assumption.
Qed.
Lemma fresh_start : fresh [0] new_manager.
Proof. constructor; cbn; try tauto; [constructor|reflexivity|]. intros k [<-|[]]. reflexivity. Qed.
Lemma fresh_exec h : forall s s' rs seen, fresh seen s -> exec cstep s h = Ret (s', rs) ->
  forall rs1 a rs2, rs = rs1 ++ CrAttested true a :: rs2 -> ~ In (at_key a) (seen ++ att_keys rs1).
Proof.
  induction h as [|o h IH]; intros s s' rs seen H E rs1 a rs2 Er; cbn in E; [injection E as <- <-; now destruct rs1|].
  destruct (cstep s o) as [[s1 r]|] eqn:E1; [|discriminate]. destruct (exec cstep s1 h) as [[s2 rs3]|] eqn:E2; [|discriminate].
  injection E as <- <-. destruct (fresh_step _ _ _ _ _ H E1) as [H1 H2]. destruct rs1 as [|r' rs1]; injection Er as -> ->.
  - cbn. rewrite app_nil_r. apply H2. reflexivity.
  - pose proof (IH _ _ _ _ H1 E2 rs1 a rs2 eq_refl) as H3. cbn [att_keys flat_map] in *. rewrite app_nil_r, <- app_assoc in H3. exact H3.
Qed.
End P.
