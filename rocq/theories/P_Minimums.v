(* C35, C36, C55: minimum security requirements.  Vocabulary: MinimumsSpec.v. *)
From Verif Require Import Minimums MinimumsSpec MinimumsProofs Hist.

(* C35: whatever updates come, a limit once in force stays, at its size, and
   never gets lower. *)
Theorem C35_limits_only_tighten :
  forall us us' k limit, lookup k (after us) = Some limit ->
  exists limit', lookup k (after (us ++ us')) = Some limit' /\ meets limit' limit.
Proof. intros us us' k limit H. unfold after in *. rewrite fold_left_app. now apply after_tighter. Qed.
Theorem C35_rejected_stays_rejected :
  forall us us' vals, check_values (after us) vals <> Min_OK -> check_values (after (us ++ us')) vals <> Min_OK.
Proof.
  intros us us' vals H H'. apply H. unfold after in *. rewrite fold_left_app in H'.
  eapply check_tighter; [apply after_tighter|exact H'].
Qed.
(* An update takes effect as a whole or not at all, and what is accepted is: every
   key kept, no empty key or limit, and each new limit meets the old one. *)
Theorem C35_refused_changes_nothing :
  forall us u, snd (update_limits (after us) u) <> Min_OK -> after (us ++ [u]) = after us.
Proof.
  intros us u H. unfold after in *. rewrite fold_left_app. cbn [fold_left].
  destruct (update_cases (fold_left (fun s u => fst (update_limits s u)) us []) u) as [H'|H']; [contradiction|exact H'].
Qed.
Theorem C35_accepted_updates :
  forall s u, update_limits s u = (u, Min_OK) <->
  (forall k o, lookup k s = Some o -> exists v, lookup k u = Some v) /\
  (forall k v, In (k, v) u -> v <> [] /\ k <> [] /\ forall o, lookup k s = Some o -> meets v o).
Proof. exact update_accepts. Qed.

(* C36 is false as stated: a value that is left out passes whatever its minimum. *)
Theorem C36_missing_values_refuted :
  exists s vals k limit, lookup k s = Some limit /\ lookup k vals = None /\ check_values s vals = Min_OK.
Proof. exists [([97], min_u64 16)], [], [97], (min_u64 16). vm_compute. auto. Qed.
(* what is missing: that each key of the limits has a value *)
Theorem C36_present_values_partial :
  forall s vals, check_values s vals = Min_OK <->
  forall k v, In (k, v) vals -> forall limit, lookup k s = Some limit -> meets v limit.
Proof. exact check_values_iff. Qed.
(* for 64-bit numbers, as written by U64, this is the order of numbers *)
Theorem C36_numbers_partial :
  forall s k limit v, limit < 2 ^ 64 -> v < 2 ^ 64 -> lookup k s = Some (min_u64 limit) ->
  (check_values s [(k, min_u64 v)] = Min_OK <-> limit <= v).
Proof.
  intros s k limit v Hl Hv Hk. rewrite check_values_iff, <- be64_ble by assumption. split.
  - intros H. apply (H k (min_u64 v) (or_introl eq_refl) _ Hk).
  - intros H k' v' [E|[]] l E'. injection E as <- <-. assert (l = min_u64 limit) by congruence. subst. split; [reflexivity|assumption].
Qed.

(* C55 is false as stated: two requests, each fine under the limits of the
   moment, of which the second is not fine once the first is in force. *)
Theorem C55_accepted_updates_apply_refuted :
  exists h, exec mstep (MCore [] [] []) h = Crash /\
  exists s rs, exec mstep (MCore [] [] []) [MRequest [([97], min_u64 3)]; MRequest [([97], min_u64 2)]] = Ret (s, rs) /\ rs = [true; true] /\
  h = [MRequest [([97], min_u64 3)]; MRequest [([97], min_u64 2)]; MCommit; MCommit].
Proof.
  eexists. split; [|eexists _, _; split; [vm_compute; reflexivity|split; reflexivity]]. vm_compute. reflexivity.
Qed.
(* What is true: with one update in flight at a time none fails.  Missing: the
   code does nothing to make sure of that. *)
Theorem C55_one_at_a_time_partial :
  forall h limits peers, one_at_a_time h -> exists s rs, exec mstep (MCore limits [] peers) h = Ret (s, rs).
Proof. intros h l p H. apply one_at_a_time_runs; cbn; auto. Qed.

Definition x_us : list limits := [[([97], min_u64 5)]; [([97], min_u64 3)]; [([97], min_u64 7); ([98], [1])]; [([98], [2])]].
Example x_after : after x_us = [([97], min_u64 7); ([98], [1])] /\ after (firstn 1 x_us) = [([97], min_u64 5)] /\
  map (fun n => snd (update_limits (after (firstn n x_us)) (nth n x_us []))) [0; 1; 2; 3]%nat = [Min_OK; Min_LimitDecreased; Min_OK; Min_KeyMissing] /\
  check_values (after x_us) [([97], min_u64 6)] = Min_ValueTooLow /\ check_values (after x_us) [([97], min_u64 300); ([99], [])] = Min_OK.
Proof. vm_compute. auto 10. Qed.
Example x_one : one_at_a_time [MRequest [([97], [1])]; MCommit; MRequest [([97], [2])]].
Proof.
  intros h1 u1 mid u2 h2 E. destruct h1 as [|a [|b [|c [|]]]]; cbn in E; try discriminate.
  - injection E as <- E. destruct mid as [|x [|y mid]]; cbn in E; try discriminate; injection E as E1 E2; subst; [now left|].
    destruct mid; discriminate.
  - injection E as _ _ _ E. destruct mid; discriminate.
Qed.

(* after every change of the limits the peers that are still connected meet them *)
Theorem C55_connected_peers_meet_the_limits :
  forall h limits peers s rs, (forall p, In p peers -> check_values limits p = Min_OK) ->
  exec mstep (MCore limits [] peers) h = Ret (s, rs) ->
  forall p, In p (mc_peers s) -> check_values (mc_limits s) p = Min_OK.
Proof.
  assert (G : forall h s s2 rs, (forall p, In p (mc_peers s) -> check_values (mc_limits s) p = Min_OK) -> exec mstep s h = Ret (s2, rs) ->
    forall p, In p (mc_peers s2) -> check_values (mc_limits s2) p = Min_OK).
  2:{ intros h limits peers s rs Hp E. exact (G h (MCore limits [] peers) s rs Hp E). }
  induction h as [|o h IHh]; intros s s2 rs Hp E; [inversion E; subst; exact Hp|].
  cbn [exec] in E. destruct (mstep s o) as [[s' r]|] eqn:E1; [|discriminate]. destruct (exec mstep s' h) as [[s3 rs3]|] eqn:E2; [|discriminate].
  inversion E; subst. apply (IHh s' s2 rs3); [|exact E2]. clear IHh E E2. rename Hp into IH. rename E1 into E. destruct o as [u|]; cbn [mstep] in E.
  - unfold request_update in E. destruct (update_limits (mc_limits s) u) as [l e]. destruct (is_ok e && _)%bool; inversion E; subst; exact IH.
  - destruct (commit_update s) as [s1|] eqn:Ec; [|discriminate]. inversion E; subst. unfold commit_update in Ec.
    destruct (mc_log s) as [|u q]; [inversion Ec; subst; exact IH|]. destruct (update_limits (mc_limits s) u) as [l e].
    destruct (is_ok e); [|discriminate]. inversion Ec; subst. cbn. intros p Hp. apply filter_In in Hp as [_ Hp].
    destruct (check_values l p); try discriminate. reflexivity.
Qed.
(* one update at a time: none that was accepted costs a connection *)
Theorem C55_accepted_updates_keep_peers_partial :
  forall h limits peers s rs, one_at_a_time h ->
  exec mstep (MCore limits [] peers) h = Ret (s, rs) -> mc_peers s = peers.
Proof.
  assert (G : forall h s0 s rs, one_at_a_time h ->
    (mc_log s0 = [] \/ ((exists u, mc_log s0 = [u] /\ forallb (fun p => is_ok (check_values (fst (update_limits (mc_limits s0) u)) p)) (mc_peers s0) = true)
       /\ forall a u b, h = a ++ MRequest u :: b -> In MCommit a)) ->
    exec mstep s0 h = Ret (s, rs) -> mc_peers s = mc_peers s0).
  2:{ intros h limits peers s rs Ho E. exact (G h (MCore limits [] peers) s rs Ho (or_introl eq_refl) E). }
  induction h as [|o h IH]; intros s0 s rs Ho Hq E; [inversion E; reflexivity|].
  pose proof (one_cons _ _ Ho) as Ho'. cbn [exec] in E. destruct o as [u|]; cbn [mstep] in E.
  - assert (Hl : mc_log s0 = []) by (destruct Hq as [H|[_ H]]; [exact H|destruct (H [] u h eq_refl)]).
    assert (Hnext : forall a v b, h = a ++ MRequest v :: b -> In MCommit a) by (intros a v b ->; now apply (Ho [] u a v b)).
    unfold request_update in E. destruct (update_limits (mc_limits s0) u) as [l e] eqn:Eu.
    destruct (is_ok e && _)%bool eqn:Ea.
    + destruct (exec mstep _ h) as [[s1 rs1]|] eqn:E1; [|discriminate]. inversion E; subst.
      apply IH in E1; [exact E1|exact Ho'|]. right. split; [|exact Hnext]. exists u. cbn. rewrite Hl, Eu. split; [reflexivity|].
      apply andb_true_iff in Ea as [_ Ea]. exact Ea.
    + destruct (exec mstep _ h) as [[s1 rs1]|] eqn:E1; [|discriminate]. inversion E; subst. apply IH in E1; auto.
  - destruct (commit_update s0) as [s1|] eqn:Ec; [|discriminate]. destruct (exec mstep s1 h) as [[s2 rs2]|] eqn:E1; [|discriminate]. inversion E; subst.
    unfold commit_update in Ec. destruct (mc_log s0) as [|u q] eqn:El.
    + inversion Ec; subst. apply IH in E1; auto.
    + destruct Hq as [Hq|[(v & Hv & Hf) _]]; [discriminate|]. injection Hv as -> ->.
      destruct (update_limits (mc_limits s0) v) as [l e]. cbn [fst] in Hf. destruct (is_ok e); [|discriminate]. inversion Ec; subst.
      apply IH in E1; [|exact Ho'|now left]. rewrite E1. cbn.
      clear - Hf. induction (mc_peers s0) as [|p ps IH]; [reflexivity|]. cbn in *. apply andb_true_iff in Hf as [-> Hf]. f_equal. auto.
Qed.

Print Assumptions C35_limits_only_tighten.
Print Assumptions C35_rejected_stays_rejected.
Print Assumptions C35_refused_changes_nothing.
Print Assumptions C35_accepted_updates.
Print Assumptions C36_missing_values_refuted.
Print Assumptions C36_present_values_partial.
Print Assumptions C36_numbers_partial.
Print Assumptions C55_accepted_updates_apply_refuted.
Print Assumptions C55_one_at_a_time_partial.
Print Assumptions C55_connected_peers_meet_the_limits.
Print Assumptions C55_accepted_updates_keep_peers_partial.
