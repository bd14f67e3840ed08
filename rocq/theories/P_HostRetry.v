(* C96: the host tries again at a bounded rate, and gives a peer up only, and
   always, after it has been silent for long enough. *)
From Verif Require Import Base HostRetry.
Open Scope Z_scope.

Lemma clamp_is v a b : a <= b -> clamp v a b = Z.max a (Z.min b v).
Proof.
  intros. unfold clamp, gmax, gmin. destruct (Z.ltb_spec b v);
  match goal with |- (if ?x <? ?y then _ else _) = _ => destruct (Z.ltb_spec x y) end; lia.
Qed.
Lemma clamp_in v a b : a <= b -> a <= clamp v a b <= b.
Proof. intros. rewrite clamp_is by assumption. lia. Qed.
Lemma i64_id z : - 2 ^ 63 <= z < 2 ^ 63 -> i64 z = z.
Proof. intros. unfold i64. rewrite Z.mod_small; lia. Qed.

(* How long to wait before the n-th call. *)
Definition wait_of (a b : Z) (n : nat) : Z :=
  match n with O => 0 | S k => Z.min b (a * 2 ^ Z.of_nat k) end.
(* The first value among the calls and how many calls came before it. *)
Fixpoint first_value {T} (l : list (option T)) : option (nat * T) :=
  match l with
  | [] => None
  | Some v :: _ => Some (O, v)
  | None :: r => match first_value r with Some (n, v) => Some (S n, v) | None => None end
  end.

Lemma wait_next a b n : 0 <= a <= b -> b < 2 ^ 62 ->
  clamp (i64 (wait_of a b n * 2)) a b = wait_of a b (S n).
Proof.
  intros H Hb. assert (P : 0 <= wait_of a b n <= b).
  { destruct n; cbn [wait_of]; [lia|]. pose proof (Z.pow_nonneg 2 (Z.of_nat n)). nia. }
  rewrite i64_id by lia. rewrite clamp_is by lia.
  destruct n; cbn [wait_of]; [change (2 ^ Z.of_nat 0) with 1; lia|].
  rewrite Nat2Z.inj_succ, Z.pow_succ_r by lia.
  assert (1 <= 2 ^ Z.of_nat n) by (pose proof (Z.pow_pos_nonneg 2 (Z.of_nat n)); lia).
  assert (a <= a * 2 ^ Z.of_nat n) by nia.
  replace (a * (2 * 2 ^ Z.of_nat n)) with (2 * (a * 2 ^ Z.of_nat n)) by ring. lia.
Qed.

Lemma retry_from_spec {T} a b : 0 <= a <= b -> b < 2 ^ 62 -> forall (calls : list (option T)) n,
  retry_from a b (wait_of a b n) calls =
  match first_value calls with
  | Some (k, v) => (map (wait_of a b) (seq n (S k)), Some v)
  | None => (map (wait_of a b) (seq n (length calls)), None)
  end.
Proof.
  intros H Hb. induction calls as [|[v|] r IH]; intros n; [reflexivity..|].
  cbn [retry_from first_value]. rewrite wait_next by assumption. rewrite IH.
  destruct (first_value r) as [[k v]|]; reflexivity.
Qed.

(* A call that fails is made again, first at once, then after waits that double
   from the least to the greatest and stay there; the first value is what is
   returned, and nothing is called after it. *)
Theorem C96_waits_double T a b (calls : list (option T)) : 0 <= a <= b -> b < 2 ^ 62 ->
  retry a b calls =
  match first_value calls with
  | Some (k, v) => (map (wait_of a b) (seq 0 (S k)), Some v)
  | None => (map (wait_of a b) (seq 0 (length calls)), None)
  end.
Proof. intros. apply (retry_from_spec a b H H0 calls 0). Qed.
Example C96_waits_case : retry 10 50 [None; None; None; None; None; Some 7%N; None] = ([0; 10; 20; 40; 50; 50], Some 7%N).
Proof. reflexivity. Qed.

(* The peer's loop.  Times that attempts take are not negative. *)
Definition times_ok (x : attempt) : Prop :=
  match x with NoDial d => 0 <= d | NoHandshake d len | Talked d len => 0 <= d /\ 0 <= len end.

(* Between the end of an attempt and the beginning of the next: at least the
   least wait, at most the greatest. *)
Fixpoint spaced (a b : Z) (l : list seen) : Prop :=
  match l with
  | Ends t _ :: (Begins u :: _) as r => a <= u - t <= b /\ spaced a b r
  | _ :: r => spaced a b r
  | [] => True
  end.
(* Given up only when longer than [w] has gone by since the two last talked, or
   since the loop began. *)
Fixpoint patient (w last : Z) (l : list seen) : Prop :=
  match l with
  | [] => True
  | Ends t true :: r => patient w t r
  | GivesUp t :: r => w < t - last /\ r = []
  | _ :: r => patient w last r
  end.

Lemma run_head c now last sleep l : match run_from c now last sleep l with
  | Begins u :: _ => u = now + sleep | Ends _ _ :: _ => False | _ => True end.
Proof. destruct l as [|x r]; cbn [run_from]; destruct (_ <? _); cbn; auto. Qed.

Lemma spaced_ends a b t k c last sleep l : a <= sleep <= b ->
  spaced a b (run_from c t last sleep l) -> spaced a b (Ends t k :: run_from c t last sleep l).
Proof.
  intros H S. pose proof (run_head c t last sleep l) as R.
  destruct (run_from c t last sleep l) as [|[u|u z|u] r]; cbn [spaced]; auto. split; [lia|exact S].
Qed.

Lemma run_spaced c : lo c <= hi c -> forall l now last sleep, spaced (lo c) (hi c) (run_from c now last sleep l).
Proof.
  intros H. induction l as [|x r IH]; intros now last sleep; cbn [run_from]; destruct (_ <? _); try exact I.
  destruct x; change (spaced ?a ?b (Begins ?u :: ?m)) with (spaced a b m); apply spaced_ends; auto using clamp_in.
Qed.
Theorem C96_attempts_are_spaced c now l : lo c <= hi c -> spaced (lo c) (hi c) (run c now l).
Proof. intros. now apply run_spaced. Qed.

Lemma run_patient c : forall l now last sleep, patient (abandon c) last (run_from c now last sleep l).
Proof.
  induction l as [|x r IH]; intros now last sleep; cbn [run_from];
    destruct (Z.ltb_spec (abandon c) (now - last)); try exact I; try (split; [lia|reflexivity]).
  destruct x; cbn [patient]; apply IH.
Qed.
Theorem C96_given_up_only_if_silent c now l : patient (abandon c) now (run c now l).
Proof. apply run_patient. Qed.

(* And always: a peer that is never talked to is given up, after no more attempts
   than fit into that time. *)
Definition silent (x : attempt) : Prop := match x with Talked _ _ => False | _ => True end.
Lemma run_gives_up c : 0 < lo c <= hi c -> forall l now last sleep,
  Forall times_ok l -> Forall silent l -> lo c <= sleep ->
  abandon c < now - last + Z.of_nat (length l) * lo c ->
  exists t, In (GivesUp t) (run_from c now last sleep l).
Proof.
  intros H. induction l as [|x r IH]; intros now last sleep OK S Hs Hl; cbn [run_from].
  - cbn in Hl. destruct (Z.ltb_spec (abandon c) (now - last)); [|lia]. exists now. now left.
  - destruct (Z.ltb_spec (abandon c) (now - last)); [exists now; now left|].
    inversion OK as [|? ? Ox Or]; subst. inversion S as [|? ? Sx Sr]; subst.
    cbn [length] in Hl. rewrite Nat2Z.inj_succ in Hl.
    destruct x as [d|d len|d len]; cbn in Ox, Sx; [| |contradiction].
    + destruct (IH (now + sleep + d) last (clamp (i64 (sleep * 2)) (lo c) (hi c)) Or Sr) as [t Ht];
        [apply clamp_in; lia|nia|]. exists t. right. right. exact Ht.
    + destruct (IH (now + sleep + d + len) last (clamp (i64 (sleep * 2 - len)) (lo c) (hi c)) Or Sr) as [t Ht];
        [apply clamp_in; lia|nia|]. exists t. right. right. exact Ht.
Qed.
Theorem C96_silent_peer_is_given_up c now l :
  0 < lo c <= hi c -> Forall times_ok l -> Forall silent l ->
  abandon c < (Z.of_nat (length l) - 1) * lo c ->
  exists t, In (GivesUp t) (run c now l).
Proof.
  intros H OK S L. unfold run. destruct l as [|x r].
  { cbn [run_from]. destruct (Z.ltb_spec (abandon c) (now - now)); [exists now; now left|]. change (Z.of_nat (length (@nil attempt)) - 1) with (-1) in L. lia. }
  cbn [length] in L. rewrite Nat2Z.inj_succ in L. cbn [run_from].
  destruct (Z.ltb_spec (abandon c) (now - now)); [exists now; now left|].
  inversion OK as [|? ? Ox Or]; subst. inversion S as [|? ? Sx Sr]; subst.
  destruct x as [d|d len|d len]; cbn in Ox, Sx; [| |contradiction].
  - destruct (run_gives_up c H r (now + 0 + d) now (clamp (i64 (0 * 2)) (lo c) (hi c)) Or Sr) as [t Ht];
      [apply clamp_in; lia|nia|]. exists t. right. right. exact Ht.
  - destruct (run_gives_up c H r (now + 0 + d + len) now (clamp (i64 (0 * 2 - len)) (lo c) (hi c)) Or Sr) as [t Ht];
      [apply clamp_in; lia|nia|]. exists t. right. right. exact Ht.
Qed.
Example C96_case :
  run (PeerConfig 10 40 100) 0 [NoDial 1; Talked 2 5; NoHandshake 1 1; NoDial 3; NoDial 0; NoDial 0; NoDial 0; NoDial 0] =
  [Begins 0; Ends 1 false; Begins 11; Ends 18 true; Begins 33; Ends 35 false; Begins 64; Ends 67 false;
   Begins 107; Ends 107 false; Begins 147; Ends 147 false; GivesUp 147].
Proof. reflexivity. Qed.

Print Assumptions C96_waits_double.
Print Assumptions C96_attempts_are_spaced.
Print Assumptions C96_given_up_only_if_silent.
Print Assumptions C96_silent_peer_is_given_up.
