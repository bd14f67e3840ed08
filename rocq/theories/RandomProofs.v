From Verif Require Import Base Util Random RandomSpec.
Open Scope nat_scope.

Lemma store_some mem pos bs mem' : store mem pos bs = Some mem' ->
  pos + length bs <= length mem /\ mem' = firstn pos mem ++ bs ++ skipn (pos + length bs) mem.
Proof.
  unfold store. destruct (Nat.ltb_spec (length mem) (pos + length bs)); [discriminate|].
  intros H0. injection H0 as <-. split; [lia|reflexivity].
Qed.
Lemma store_ok mem pos bs : pos + length bs <= length mem -> exists mem', store mem pos bs = Some mem'.
Proof.
  intros H. unfold store. destruct (Nat.ltb_spec (length mem) (pos + length bs)); [lia|]. eauto.
Qed.
Lemma skipn_app_ge {A} (a b : list A) n : length a <= n -> skipn n (a ++ b) = skipn (n - length a) b.
Proof. intros H. rewrite skipn_app, skipn_all2 by lia. reflexivity. Qed.
Lemma skipn_plus {A} (l : list A) : forall a b, skipn (a + b) l = skipn b (skipn a l).
Proof. induction l; intros [|a'] b; cbn; try reflexivity; [now rewrite skipn_nil|apply IHl]. Qed.
Lemma firstn_plus {A} (l : list A) : forall a b, firstn (a + b) l = firstn a l ++ firstn b (skipn a l).
Proof.
  induction l; intros [|a'] b; cbn; try reflexivity; [now rewrite firstn_nil|]. now rewrite IHl.
Qed.

(* After a store of what the source gave, [pos] bytes further. *)
Lemma store_parts mem pos bs mem' : store mem pos bs = Some mem' ->
  length mem' = length mem /\
  firstn (pos + length bs) mem' = firstn pos mem ++ bs /\
  skipn (pos + length bs) mem' = skipn (pos + length bs) mem.
Proof.
  intros H. destruct (store_some _ _ _ _ H) as [L ->]. set (n := length bs) in *.
  assert (Lf : length (firstn pos mem) = pos) by (rewrite firstn_length; lia).
  repeat split.
  - rewrite !app_length, skipn_length, Lf. fold n. lia.
  - rewrite app_assoc, firstn_app, app_length, Lf. fold n.
    replace (pos + n - (pos + n)) with 0 by lia. rewrite firstn_O, app_nil_r.
    apply firstn_all2. rewrite app_length, Lf. fold n. lia.
  - rewrite app_assoc, skipn_app_ge by (rewrite app_length, Lf; fold n; lia).
    rewrite app_length, Lf. fold n. now rewrite Nat.sub_diag.
Qed.

(* A run, given how its first answer is stored: what every result says. *)
Definition fine (src : bytes) (fails : Prop) (mem : bytes) (pos size : nat) (r : run) : Prop :=
  match r with
  | Done true mem' =>
      size <= length src /\
      mem' = firstn pos mem ++ firstn size src ++ skipn (pos + size) mem
  | Done false mem' =>
      length src < size /\ fails /\ only_within pos size mem mem'
  | Waiting mem' => length src < size /\ only_within pos size mem mem'
  | Broken => False
  end.

Lemma only_refl pos size mem : only_within pos size mem mem.
Proof. repeat split; reflexivity. Qed.

Lemma fine_zero src fails mem pos : pos <= length mem -> fine src fails mem pos 0 (Done true mem).
Proof.
  intros L. cbn. split; [lia|]. rewrite Nat.add_0_r. symmetry. apply firstn_skipn.
Qed.

Lemma fine_step src (fails fails' : Prop) mem mem1 pos size bs r :
  pos + size <= length mem ->
  store mem pos (firstn size bs) = Some mem1 -> (fails' -> fails) ->
  fine src fails' mem1 (pos + length (firstn size bs)) (size - length (firstn size bs)) r ->
  fine (bs ++ src) fails mem pos size r.
Proof.
  intros L Hs Hf Hr. destruct (store_parts _ _ _ _ Hs) as [L1 [Hp Hq]].
  pose proof (firstn_length size bs) as Ln. set (g := firstn size bs) in *. set (n := length g) in *.
  assert (Hend : pos + n + (size - n) = pos + size) by lia.
  assert (Hskip : skipn (pos + size) mem1 = skipn (pos + size) mem).
  { rewrite <- Hend, !(skipn_plus _ (pos + n)), Hq. reflexivity. }
  assert (Hpre : firstn pos mem1 = firstn pos mem).
  { transitivity (firstn pos (firstn (pos + n) mem1)).
    - rewrite firstn_firstn. now rewrite Nat.min_l by lia.
    - rewrite Hp, firstn_app, firstn_firstn, firstn_length.
      replace (pos - Nat.min pos (length mem)) with 0 by lia. rewrite firstn_O, app_nil_r.
      now rewrite Nat.min_id. }
  assert (Hw : forall m, only_within (pos + n) (size - n) mem1 m -> only_within pos size mem m).
  { intros m [A [B C]]. split; [lia|]. split.
    - rewrite <- Hpre. transitivity (firstn pos (firstn (pos + n) m)).
      + rewrite firstn_firstn. now rewrite Nat.min_l by lia.
      + rewrite B, firstn_firstn. now rewrite Nat.min_l by lia.
    - rewrite <- Hskip, <- Hend. exact C. }
  assert (Hsmall : length src < size - n -> length bs + length src < size) by lia.
  destruct r as [[|] m|m|]; cbn in Hr |- *; [| | |exact Hr].
  - destruct Hr as [A ->]. split; [rewrite app_length; lia|].
    rewrite Hend, Hskip, Hp, <- app_assoc. f_equal.
    rewrite firstn_app. fold g. rewrite <- app_assoc. f_equal. f_equal.
    destruct (Nat.le_gt_cases size (length bs)) as [G|G].
    + replace (size - n) with 0 by lia. replace (size - length bs) with 0 by lia. reflexivity.
    + replace n with (length bs) by lia. reflexivity.
  - rewrite app_length. destruct Hr as [A [B C]]. auto.
  - rewrite app_length. destruct Hr as [A C]. auto.
Qed.

Lemma pull_fine l : forall mem pos size, pos + size <= length mem ->
  fine (handed l) (In Failed l) mem pos size (pull l mem pos size).
Proof.
  induction l as [|a l IH]; intros mem pos size L; cbn [pull].
  - destruct (Nat.eqb_spec size 0) as [->|Hz]; [apply fine_zero; lia|].
    cbn. split; [lia|apply only_refl].
  - destruct (Nat.eqb_spec size 0) as [->|Hz]; [apply fine_zero; lia|].
    destruct a as [|bs]; [cbn; split; [lia|split; [now left|apply only_refl]]|].
    cbn zeta. pose proof (firstn_length size bs) as Ln.
    destruct (store_ok mem pos (firstn size bs)) as [m1 Hs]; [lia|]. rewrite Hs.
    cbn [handed]. apply (fine_step (handed l) _ (In Failed l) mem m1); auto.
    + now right.
    + apply IH. destruct (store_parts _ _ _ _ Hs) as [L1 _]. lia.
Qed.

Lemma pull_words_fine l : forall mem pos size, pos + size <= length mem ->
  fine (handed_words l) (In None l) mem pos size (pull_words l mem pos size).
Proof.
  induction l as [|a l IH]; intros mem pos size L; cbn [pull_words].
  - destruct (Nat.eqb_spec size 0) as [->|Hz]; [apply fine_zero; lia|].
    cbn. split; [lia|apply only_refl].
  - destruct (Nat.eqb_spec size 0) as [->|Hz]; [apply fine_zero; lia|].
    destruct a as [r|]; [|cbn; split; [lia|split; [now left|apply only_refl]]].
    cbn zeta. pose proof (firstn_length size (be64 r)) as Ln.
    destruct (store_ok mem pos (firstn size (be64 r))) as [m1 Hs]; [lia|]. rewrite Hs.
    cbn [handed_words]. apply (fine_step (handed_words l) _ (In None l) mem m1); auto.
    + now right.
    + apply IH. destruct (store_parts _ _ _ _ Hs) as [L1 _]. lia.
Qed.

Lemma pull_sgx_fine a mem pos size : pos + size <= length mem -> 0 < size ->
  fine (handed [a]) True mem pos size (pull_sgx a mem pos size).
Proof.
  intros L Hz. unfold pull_sgx. destruct (Nat.eqb_spec size 0) as [->|_]; [lia|].
  destruct a as [|bs]; [cbn; split; [lia|split; [exact I|apply only_refl]]|].
  cbn [handed]. rewrite app_nil_r.
  destruct (Nat.ltb_spec (length bs) size); [cbn; split; [lia|split; [exact I|apply only_refl]]|].
  pose proof (firstn_length size bs) as Ln.
  destruct (store_ok mem pos (firstn size bs)) as [m1 Hs]; [lia|]. rewrite Hs.
  destruct (store_some _ _ _ _ Hs) as [_ ->]. cbn. split; [lia|].
  replace (length (firstn size bs)) with size by lia. reflexivity.
Qed.

Lemma random_fine e mem pos size : not_simulated_nitro e -> 0 < size -> pos + size <= length mem ->
  fine (source e) (source_fails e) mem pos size (random_bytes e mem pos size).
Proof.
  intros He Hz L. destruct e; cbn in He |- *; try contradiction.
  - now apply pull_fine.
  - now apply pull_words_fine.
  - now apply pull_fine.
  - now apply pull_sgx_fine.
Qed.

Lemma whole e junk r : not_simulated_nitro e -> 0 < length junk ->
  random_bytes e junk 0 (length junk) = r ->
  fine (source e) (source_fails e) junk 0 (length junk) r.
Proof. intros He Hz <-. apply random_fine; auto with arith. Qed.
