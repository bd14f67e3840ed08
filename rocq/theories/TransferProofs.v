From Verif Require Import DBCommon.

Section TransferProofs.
Context {S V : Type}.
Variable L : smap V.                       (* the source's rows *)
Variable ser : bytes -> V -> bytes.
Variable R : S -> smap V -> Prop.          (* destination state holds these rows *)
Variable nonempty : bool.
Variable cnt : S -> nat.
Variable load_row : S -> bytes -> S * dberr * bytes.
Hypothesis HS : sorted L.
Hypothesis HK : forall k v, In (k, v) L -> length k = 16%nat.
Hypothesis HL : forall dst pre k v post, R dst pre -> L = pre ++ (k, v) :: post ->
  exists dst', load_row dst (ser k v) = (dst', E_OK, k) /\ R dst' (pre ++ [(k, v)]) /\
               cnt dst' = Datatypes.S (cnt dst).

Let serl := map (fun kv : bytes * V => ser (fst kv) (snd kv)).
Let dump := dump_rows ser L (fun s => above s L).
Let load := load_rows nonempty cnt load_row.

Lemma load_loop_ok mid : forall dst pre post last, R dst pre -> L = pre ++ mid ++ post ->
  exists dst', load_loop load_row dst (serl mid) last =
     (dst', match last_key mid with Some k => k | None => last end, E_OK) /\
     R dst' (pre ++ mid) /\ cnt dst' = (cnt dst + length mid)%nat.
Proof.
  induction mid as [|[k v] mid IH]; intros dst pre post last HR E; subst serl; cbn.
  - exists dst; rewrite app_nil_r; repeat split; auto; lia.
  - destruct (HL dst pre k v (mid ++ post) HR E) as (d1 & E1 & R1 & C1). rewrite E1.
    destruct (IH d1 (pre ++ [(k, v)]) post k R1) as (d2 & E2 & R2 & C2).
    { rewrite <- app_assoc; exact E. }
    exists d2. split; [|split].
    + rewrite E2. destruct mid; [reflexivity|].
      destruct (last_key (p :: mid)) eqn:El; [reflexivity|].
      apply last_key_none in El; discriminate.
    + now rewrite <- app_assoc in R2.
    + lia.
Qed.

Lemma load_ok dst pre mid post : R dst pre -> L = pre ++ mid ++ post -> mid <> [] ->
  exists dst', load dst (serl mid) =
     Ret (dst', match last_key mid with Some k => k | None => [] end, E_OK) /\ R dst' (pre ++ mid).
Proof.
  intros HR E Hne. destruct (load_loop_ok mid dst pre post [] HR E) as (d' & El & R' & C').
  exists d'; split; [|exact R']. unfold load, load_rows.
  assert (Hl : length (serl mid) = length mid) by (subst serl; apply map_length).
  rewrite Hl. destruct (Nat.eqb_spec (length mid) 0) as [H0|_]; [destruct mid; [congruence|discriminate]|].
  rewrite andb_false_r, El, C', Nat.eqb_refl. reflexivity.
Qed.

Lemma app_inj_len {A} (a b c d : list A) : a ++ b = c ++ d -> length a = length c -> a = c /\ b = d.
Proof.
  revert c; induction a as [|x a IH]; intros [|y c] E Hlen; cbn in *; try discriminate; auto.
  injection E as -> E. destruct (IH c E) as [-> ->]; auto.
Qed.

(* start = key of the last row of [pre] selects exactly the rest *)
Lemma after_pre pre rest : L = pre ++ rest -> pre <> [] ->
  exists k, last_key pre = Some k /\ length k = 16%nat /\ above k L = rest.
Proof.
  intros E Hne. destruct (exists_last Hne) as [pre0 [[k v] ->]].
  exists k. rewrite last_key_app. split; [reflexivity|]. split.
  - apply (HK k v). rewrite E. apply in_or_app; left; apply in_or_app; right; now left.
  - rewrite E, <- app_assoc. apply above_last. rewrite app_assoc, <- E; exact HS.
Qed.

Lemma transfer_from sizes : forall dst pre rest, R dst pre -> L = pre ++ rest ->
  Forall (fun n => (0 < n)%nat) sizes ->
  exists dst', transfer dump load dst (match last_key pre with Some k => k | None => [] end) sizes
     = Ret (dst', E_OK) /\ R dst' (pre ++ firstn (total sizes) rest).
Proof.
  induction sizes as [|n sizes IH]; intros dst pre rest HR E HF; cbn [transfer total fold_right].
  - exists dst. rewrite firstn_O, app_nil_r; auto.
  - apply Forall_cons_iff in HF as [Hn HF']. fold (total sizes).
    assert (ED : dump (match last_key pre with Some k => k | None => [] end) n =
      (match last_key (firstn n rest) with Some k => k | None => [] end, E_OK, serl (firstn n rest))).
    { unfold dump, dump_rows. destruct pre as [|p0 pre0] eqn:Epre.
      - cbn [last_key]. cbn in E; rewrite E; reflexivity.
      - rewrite <- Epre in *. assert (Hne : pre <> []) by (rewrite Epre; discriminate).
        destruct (after_pre pre rest E Hne) as (k & Ek & Hk & Ha). rewrite Ek.
        destruct k as [|b k]; [discriminate|]. rewrite Hk; cbn [Nat.eqb negb]. now rewrite Ha. }
    rewrite ED. destruct rest as [|kv rest].
    { rewrite !firstn_nil. cbn. exists dst; rewrite app_nil_r; auto. }
    destruct n as [|n]; [lia|].
    set (mid := firstn (Datatypes.S n) (kv :: rest)). set (post := skipn (Datatypes.S n) (kv :: rest)).
    assert (Em : kv :: rest = mid ++ post) by (symmetry; apply firstn_skipn).
    assert (Hmid : mid <> []) by (subst mid; cbn; discriminate).
    destruct (load_ok dst pre mid post HR) as (d1 & El & R1); [rewrite <- Em; exact E|exact Hmid|].
    destruct (serl mid) as [|s0 ss] eqn:Es.
    { subst mid serl; discriminate. }
    rewrite El.
    assert (Elast : last_key mid = last_key (pre ++ mid)).
    { destruct (exists_last Hmid) as [mid0 [[k v] Emid]]. rewrite Emid, app_assoc, !last_key_app; reflexivity. }
    rewrite Elast.
    destruct (IH d1 (pre ++ mid) post R1) as (d2 & E2 & R2); [rewrite <- app_assoc, <- Em; exact E|exact HF'|].
    exists d2; split; [exact E2|]. rewrite <- app_assoc in R2.
    replace (firstn (Datatypes.S n + total sizes) (kv :: rest)) with (mid ++ firstn (total sizes) post); [exact R2|].
    subst mid post. clear. set (l := kv :: rest). set (a := Datatypes.S n).
    rewrite <- (firstn_skipn a l) at 3. rewrite firstn_app, firstn_firstn.
    replace (Nat.min (a + total sizes) a) with a by lia.
    f_equal. destruct (Nat.le_ge_cases (length l) a) as [Hle|Hge].
    + rewrite (skipn_all2 l) by lia. now rewrite !firstn_nil.
    + rewrite firstn_length, Nat.min_l by lia. f_equal; lia.
Qed.

Lemma transfer_ok dst sizes : R dst [] -> Forall (fun n => (0 < n)%nat) sizes ->
  (length L <= total sizes)%nat ->
  exists dst', transfer dump load dst [] sizes = Ret (dst', E_OK) /\ R dst' L.
Proof.
  intros HR HF Hle. destruct (transfer_from sizes dst [] L HR eq_refl HF) as (d & E & R').
  exists d; split; [exact E|]. cbn in R'. now rewrite firstn_all2 in R'.
Qed.
End TransferProofs.

(* Acceptance: a load succeeds only if every row is accepted in turn. *)
Section LoadAccepts.
Context {S : Type}.
Variable nonempty : bool.
Variable cnt : S -> nat.
Variable load_row : S -> bytes -> S * dberr * bytes.
Inductive accepted : S -> list bytes -> S -> Prop :=
| acc_nil s : accepted s [] s
| acc_cons s r s1 id rows s2 : load_row s r = (s1, E_OK, id) -> accepted s1 rows s2 ->
    accepted s (r :: rows) s2.
Lemma load_loop_accepted rows : forall s s' last last', load_loop load_row s rows last = (s', last', E_OK) ->
  accepted s rows s'.
Proof.
  induction rows as [|r rows IH]; intros s s' last last'; cbn.
  - intros H; injection H as <- _; constructor.
  - destruct (load_row s r) as [[s1 e] id] eqn:E; destruct e; try discriminate.
    intros H; econstructor; eauto.
Qed.
Lemma load_accepted s rows s' last : load_rows nonempty cnt load_row s rows = Ret (s', last, E_OK) ->
  accepted s rows s' /\ cnt s' = (cnt s + length rows)%nat.
Proof.
  unfold load_rows. destruct (nonempty && _)%bool; [discriminate|].
  destruct (load_loop load_row s rows []) as [[s1 l] e] eqn:E. destruct e; try discriminate.
  destruct (Nat.eqb_spec (cnt s1) (cnt s + length rows)); [|discriminate].
  intros H; injection H as <- _. split; [eapply load_loop_accepted; eauto|auto].
Qed.
End LoadAccepts.
