(* Different contents are hashed differently: NextHash's input determines the
   entry. *)
From Verif Require Import RaftLog Raft RaftSpec RaftChain WireProofs UtilProofs.

Lemma app_inj_1 {A} (a b c d : list A) : a ++ c = b ++ d -> length a = length b -> a = b /\ c = d.
Proof. revert b; induction a as [|x a IH]; intros [|y b] E H; try discriminate; [auto|]. cbn in *. injection E as <- E. destruct (IH b E) as [-> ->]; [congruence|auto]. Qed.
Lemma varint_aux_len fuel n : (length (varint_aux fuel n) <= fuel)%nat.
Proof. revert n; induction fuel as [|f IH]; intros n; cbn [varint_aux]; [cbn; lia|]. destruct (n <? 128); cbn [length]; [lia|]. specialize (IH (n / 128)). lia. Qed.
Lemma ser_replica_len r : blen (rp_id r) < 2 ^ 32 -> blen (ser_replica r) < 2 ^ 64.
Proof.
  intros H. unfold ser_replica. rewrite ser_msg_app. unfold blen in *. rewrite app_length, Nat2N.inj_add.
  assert (H1 : N.of_nat (length (ser_msg (opt_bytes 1 (rp_id r)))) <= 20 + N.of_nat (length (rp_id r))).
  { unfold opt_bytes. destruct (rp_id r) as [|b l]; [cbn; lia|]. unfold ser_msg. cbn [flat_map]. rewrite app_nil_r.
    cbn [ser_field]. rewrite !app_length. pose proof (varint_aux_len 10 (1 * 8 + 2)). pose proof (varint_aux_len 10 (blen (b :: l))).
    unfold varint, blen in *. clear H. revert H0 H1. generalize (length (varint_aux 10 (1 * 8 + 2))) (length (varint_aux 10 (N.of_nat (length (b :: l))))) (length (b :: l)). clear; lia. }
  assert (H2 : N.of_nat (length (ser_msg (opt_var 2 (if rp_voting r then 1 else 0)))) <= 2) by (destruct (rp_voting r); vm_compute; discriminate).
  assert (2 ^ 32 + 22 < 2 ^ 64) by reflexivity. lia.
Qed.
Lemma ser_replica_inj r1 r2 : blen (rp_id r1) < 2 ^ 32 -> blen (rp_id r2) < 2 ^ 32 -> ser_replica r1 = ser_replica r2 -> r1 = r2.
Proof.
  assert (Hp : forall r, blen (rp_id r) < 2 ^ 32 -> parse_msg (ser_replica r) = Some (opt_bytes 1 (rp_id r) ++ opt_var 2 (if rp_voting r then 1 else 0))).
  { intros r H. apply parse_ser. apply Forall_app; split; [apply ob_ok|apply ov_ok]; try (split; reflexivity || discriminate).
    - eapply N.lt_trans; [exact H|reflexivity].
    - destruct (rp_voting r); reflexivity. }
  intros H1 H2 E. pose proof (Hp r1 H1) as P1. rewrite E, (Hp r2 H2) in P1. injection P1 as P1.
  destruct r1 as [[|x1 i1] [|]], r2 as [[|x2 i2] [|]]; cbn in P1; congruence.
Qed.
Lemma ser_group_inj g1 g2 : Forall (fun r => blen (rp_id r) < 2 ^ 32) g1 -> Forall (fun r => blen (rp_id r) < 2 ^ 32) g2 ->
  ser_group g1 = ser_group g2 -> g1 = g2.
Proof.
  assert (Hp : forall g, Forall (fun r => blen (rp_id r) < 2 ^ 32) g -> parse_msg (ser_group g) = Some (group_fields g)).
  { intros g H. apply parse_ser. unfold group_fields. apply Forall_map. eapply Forall_impl; [|exact H].
    intros r Hr. split; [split; reflexivity || discriminate|]. cbn [snd]. now apply ser_replica_len. }
  intros H1 H2 E. pose proof (Hp g1 H1) as P1. rewrite E, (Hp g2 H2) in P1. injection P1 as P1. clear E Hp.
  revert g2 H2 P1; induction H1 as [|r1 g1 Hr1 H1 IH]; intros [|r2 g2] H2 P1; try discriminate; [reflexivity|].
  inversion H2; subst. cbn [group_fields map] in P1. injection P1 as E P1. f_equal; [symmetry; now apply ser_replica_inj|now apply IH].
Qed.
Lemma tagged_inj i a b : i < 2 ^ 64 -> entry_typed a -> entry_typed b ->
  tagged (e_inner a) i (e_term a) = tagged (e_inner b) i (e_term b) -> e_term a = e_term b /\ e_inner a = e_inner b.
Proof.
  intros Hi [Ta Ia] [Tb Ib] E.
  assert (Hs : forall (x y u v : bytes), x ++ be64 i ++ be64 (e_term a) ++ u = y ++ be64 i ++ be64 (e_term b) ++ v -> length x = length y ->
     x = y /\ e_term a = e_term b /\ u = v).
  { intros x y u v H Hl. apply app_inj_1 in H; [|assumption]. destruct H as [Hxy H]. apply app_inv_head in H.
    apply app_inj_1 in H; [|reflexivity]. destruct H as [H Huv]. apply be64_inj in H; auto. }
  unfold tagged in E. destruct (e_inner a) as [|da|ga|ma], (e_inner b) as [|db|gb|mb];
    try rewrite <- (app_nil_r (be64 (e_term a))) in E at 1; try rewrite <- (app_nil_r (be64 (e_term b))) in E at 1.
  all: apply Hs in E; [|reflexivity]; destruct E as [E0 [E1 E2]]; try discriminate; split; try assumption; try congruence.
  f_equal. now apply ser_group_inj.
Qed.

Lemma clash_collision hmac A B : chained hmac A -> chained hmac B ->
  Forall entry_typed A -> Forall entry_typed B -> llen A < 2 ^ 64 -> clash A B -> collision hmac A B.
Proof.
  intros HA HB TA TB Hl [j [a [b [Ha [Hb [Eh Hd]]]]]]. exists j, a, b. do 2 (split; [assumption|]). cbv zeta.
  destruct (chained_nth hmac A j a HA Ha) as [H1 _], (chained_nth hmac B j b HB Hb) as [H2 _].
  split; [|congruence]. intros E. injection E as E1 E2. rewrite Forall_forall in TA, TB.
  assert (Hj : (j < length A)%nat) by (apply nth_error_Some; congruence).
  destruct (tagged_inj (N.of_nat j + 1) a b) as [? ?]; auto; [unfold llen in Hl; lia|eapply TA, nth_error_In; eassumption|eapply TB, nth_error_In; eassumption|].
  destruct Hd as [?|[?|?]]; congruence.
Qed.
