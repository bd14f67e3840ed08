(* C93: what the host reports is what the enclave counted. *)
From Verif Require Import Base Metrics MetricsSpec MetricsProofs.
From Coq Require Import String.
Open Scope list_scope.
Open Scope N_scope.

(* After any polls, answered or not: the sum of what the host has written for a
   counter is its value in the enclave at the last answered poll, but for the
   precision of the sink's numbers, one part in 2^24. *)
Theorem C93_sums_are_the_counts names ps k :
  NoDup names -> rising (fun _ => 0) ps -> is_counter names k ->
  (2 ^ 24 * Z.abs (reported (snd (polls (map (snapshot names) ps))) k - Z.of_N (counted ps k))
     <= Z.of_N (counted ps k))%Z.
Proof.
  intros Hn Hr Hk. destruct (polls_spec names Hn ps Hr) as [_ H]. destruct (H k Hk) as [A [B C]].
  rewrite A, <- B. now apply f32_sum.
Qed.

(* So small counts are exact, and what did not happen is not reported. *)
Theorem C93_small_counts_are_exact names ps k :
  NoDup names -> rising (fun _ => 0) ps -> is_counter names k -> counted ps k < 2 ^ 24 ->
  reported (snd (polls (map (snapshot names) ps))) k = Z.of_N (counted ps k).
Proof.
  intros Hn Hr Hk Hs. pose proof (C93_sums_are_the_counts names ps k Hn Hr Hk) as H.
  assert (Z.of_N (counted ps k) < 2 ^ 24)%Z by lia. lia.
Qed.

(* And sums never fall from one poll to the next. *)
Theorem C93_sums_never_fall names ps p k :
  NoDup names -> rising (fun _ => 0) (ps ++ [p]) -> is_counter names k ->
  (reported (snd (polls (map (snapshot names) ps))) k <=
   reported (snd (polls (map (snapshot names) (ps ++ [p])))) k)%Z.
Proof.
  intros Hn Hr Hk. destruct (rising_snoc _ _ _ Hr) as [R1 _].
  destruct (polls_spec names Hn _ Hr) as [_ H]. destruct (H k Hk) as [A [_ C]].
  destruct (polls_spec names Hn _ R1) as [_ H']. destruct (H' k Hk) as [A' _].
  rewrite A, A', rises_snoc, map_app, zsum_app. rewrite rises_snoc in C. apply Forall_app in C as [_ C].
  destruct (snd p); cbn [map zsum fold_right]; [|lia].
  inversion C as [|? ? C1 _]; subst. pose proof (f32_near _ C1) as F. lia.
Qed.

(* The hypotheses are met: an error that first happens between two polls, a
   poll without an answer, a big counter. *)
Definition x_k : key := ("db2.ops"%string, [("type", "restore")]%string).
Definition x_v (big small err : N) (k : key) : N :=
  if key_eqb k x_k then small
  else if key_eqb k (err_key "DB_Merkle") then err
  else if key_eqb k ("merkle.nodes"%string, []) then big else 0.
Definition x_ps : list poll :=
  [(x_v 33554433 3 0, true); (x_v 33554433 5 1, false); (x_v 67108869 9 2, true); (x_v 67108869 9 4, true)].
Definition x_names : list string := ["OK"; "DB_Merkle"; "Core_Internal"]%string.

Example C93_meets :
  NoDup x_names /\ rising (fun _ => 0) x_ps /\
  is_counter x_names x_k /\ is_counter x_names (err_key "DB_Merkle") /\
  map (reported (snd (polls (map (snapshot x_names) x_ps))))
    [x_k; err_key "DB_Merkle"; ("merkle.nodes"%string, []); err_key "Core_Internal"] =
  [9; 4; 67108868; 0]%Z.
Proof.
  split; [|split; [|split; [|split]]].
  - repeat constructor; cbn; intuition discriminate.
  - cbn [rising x_ps fst]. 
    assert (M : forall k b s e b' s' e', b <= b' -> s <= s' -> e <= e' -> b' < 2 ^ 63 -> s' < 2 ^ 63 -> e' < 2 ^ 63 ->
      x_v b s e k <= x_v b' s' e' k /\ x_v b' s' e' k < 2 ^ 63).
    { intros k b s e b' s' e' **. unfold x_v.
      destruct (key_eqb k x_k); [auto|]. destruct (key_eqb k (err_key _)); [auto|].
      destruct (key_eqb k _); [auto|]. split; [lia|reflexivity]. }
    repeat split; try (apply M; vm_compute; congruence); try apply N.le_0_l.
    all: intros; apply (M _ 0 0 0); vm_compute; congruence.
  - left. assert (H : existsb (key_eqb x_k) table = true) by (vm_compute; reflexivity).
    apply existsb_exists in H as [j [H1 H2]]. apply key_eqb_eq in H2. now subst.
  - right. exists "DB_Merkle"%string. split; [cbn; tauto|reflexivity].
  - vm_compute. reflexivity.
Qed.

Print Assumptions C93_sums_are_the_counts.
Print Assumptions C93_small_counts_are_exact.
Print Assumptions C93_sums_never_fall.
