(* C33: the group clock.  Vocabulary: GroupClockSpec.v.  [h] is the history of
   reported times, [peers] the set of peers asked about. *)
From Verif Require Import GroupClock GroupClockSpec GroupClockProofs MembershipSpec P_Membership.

(* More than half of the participants (this replica included) are [good]; their
   clocks are between lo and hi.  Then so is the group time. *)
Theorem C33_within_range_of_any_majority :
  forall h peers good lo hi, ssorted peers ->
  (length (participants h peers) < 2 * length (filter good (participants h peers)))%nat ->
  (forall w, In w (participants h peers) -> good w = true -> lo <= shows h w <= hi)%Z ->
  (lo <= fst (get_time peers (crun h)) <= hi)%Z.
Proof.
  intros h peers good lo hi Hs Hm Hg. unfold get_time. cbn [fst].
  rewrite (get_time_participants h peers Hs), map_length. now apply median_within with (good := good).
Qed.
Theorem C33_is_a_reported_clock :
  forall h peers, ssorted peers ->
  exists w, In w (participants h peers) /\ fst (get_time peers (crun h)) = shows h w.
Proof.
  intros h peers Hs. unfold get_time. cbn [fst]. rewrite (get_time_participants h peers Hs).
  pose proof (median_in (map (shows h) (participants h peers)) ltac:(discriminate)) as H.
  apply in_map_iff in H as [w [E Hw]]. exists w. auto.
Qed.
(* how many remote clocks were used *)
Theorem C33_counts_the_clocks_used :
  forall h peers, ssorted peers -> snd (get_time peers (crun h)) + 1 = N.of_nat (length (participants h peers)).
Proof.
  intros h peers Hs. unfold get_time. cbn [snd]. rewrite (get_time_participants h peers Hs), map_length.
  unfold participants. cbn [length]. lia.
Qed.

(* As core uses it: the time of the connected voters and this replica.  When it
   says it heard from all voters, then every other voter is connected and has
   reported. *)
Theorem C33_attested_time_heard_all_voters :
  forall h connected voters me t, ssorted connected -> ssorted voters ->
  psize voters < 2 ^ 64 - 1 ->
  group_time connected (Some (voters, pmem me voters)) (crun h) = (t, true) -> ~ In me connected ->
  forall p, In p voters -> p <> me -> In p connected /\ last_report h (Some p) <> None.
Proof.
  intros h connected voters me t Hc Hv Hbig E Hme p Hp Hpm. unfold group_time, time_participants in E.
  set (ps := set_inter connected voters) in *. destruct (get_time ps (crun h)) as [t' used] eqn:Eg.
  injection E as -> Eu.
  assert (Hss : ssorted ps) by now apply set_inter_sorted.
  pose proof (C33_counts_the_clocks_used h ps Hss) as Hcnt. rewrite Eg in Hcnt. cbn [snd] in Hcnt.
  unfold participants in Hcnt. cbn [length] in Hcnt.
  set (rep := fun w : option bytes => match last_report h w with Some _ => true | None => false end) in *.
  set (good := fun q : bytes => rep (Some q)).
  assert (Elen : length (filter rep (map Some ps)) = length (filter good ps)).
  { clear. induction ps as [|q l IH]; [reflexivity|]. cbn. unfold good at 1. destruct (rep (Some q)); cbn; congruence. }
  rewrite Elen in Hcnt.
  (* voters other than me *)
  set (others := filter (fun q => negb (beq q me)) voters).
  assert (Hnd : NoDup voters) by now apply MembershipProofs.ssorted_NoDup.
  assert (Hnd2 : NoDup (filter good ps)) by (apply NoDup_filter; now apply MembershipProofs.ssorted_NoDup).
  assert (Hincl : incl (filter good ps) others).
  { intros q Hq. apply filter_In in Hq as [Hq _]. apply set_inter_In in Hq as [H1 H2]; [|assumption|assumption].
    apply filter_In. split; [assumption|]. destruct (beq_spec q me); [subst; contradiction|reflexivity]. }
  assert (Hlen : (length others <= length (filter good ps))%nat).
  { destruct (pmem me voters) eqn:Em.
    - assert (Hlt : (length others < length voters)%nat).
      { apply (Nat.lt_le_trans _ (length (me :: others))); [cbn; lia|]. apply NoDup_incl_length.
        - constructor; [|now apply NoDup_filter]. intros Hin. apply filter_In in Hin as [_ Hin]. now rewrite beq_refl in Hin.
        - intros q [->|Hq]; [|apply filter_In in Hq; tauto]. unfold pmem in Em. apply existsb_exists in Em as [r [Hr Er]].
          apply beq_eq in Er. now subst. }
      unfold psize in Eu. lia.
    - unfold psize in Eu. pose proof (filter_length_le (fun q => negb (beq q me)) voters). fold others in H. lia. }
  assert (Hback : incl others (filter good ps)) by now apply NoDup_length_incl.
  assert (Hin : In p others).
  { apply filter_In. split; [assumption|]. destruct (beq_spec p me); [contradiction|reflexivity]. }
  apply Hback, filter_In in Hin as [H1 H2]. apply set_inter_In in H1 as [H1 _]; [|assumption|assumption].
  split; [assumption|]. unfold good, rep in H2. destruct (last_report h (Some p)); congruence.
Qed.

(* five clocks: this replica's, peers 1..4, of which 2 is far ahead and 3 far
   behind; peer 5 never reported *)
Definition x_reports : list cop :=
  [CLocal 1000; CRemote (pid 1) 990; CRemote (pid 2) 999999; CRemote (pid 3) 5; CRemote (pid 4) 900; CRemote (pid 4) 1010].
Definition x_peers : pset := [pid 1; pid 2; pid 3; pid 4; pid 5].
Example x_time :
  ssorted x_peers /\ length (participants x_reports x_peers) = 5%nat /\
  get_time x_peers (crun x_reports) = (1000%Z, 4) /\
  filter (fun w => (990 <=? shows x_reports w)%Z && (shows x_reports w <=? 1010)%Z)%bool (participants x_reports x_peers) =
    [None; Some (pid 1); Some (pid 4)].
Proof.
  split; [cbn -[pid blt]; repeat split; intros q Hq; cbn -[pid blt] in Hq; intuition (subst; vm_compute; reflexivity)|].
  split; [vm_compute; reflexivity|]. split; vm_compute; reflexivity.
Qed.
Example x_attested :
  group_time [pid 1; pid 2; pid 3; pid 4] (Some ([pid 1; pid 3; pid 9], pmem (pid 9) [pid 1; pid 3; pid 9])) (crun x_reports) = (990%Z, true) /\
  group_time [pid 1; pid 2; pid 4] (Some ([pid 1; pid 3; pid 9], true)) (crun x_reports) = (1000%Z, false).
Proof. split; vm_compute; reflexivity. Qed.

(* and it says so whenever that is the case *)
Theorem C33_all_voters_heard_is_attested :
  forall h connected voters me, ssorted connected -> ssorted voters ->
  (forall p, In p voters -> p <> me -> In p connected /\ last_report h (Some p) <> None) ->
  snd (group_time connected (Some (voters, pmem me voters)) (crun h)) = true.
Proof.
  intros h connected voters me Hc Hv Hall. unfold group_time, time_participants.
  set (ps := set_inter connected voters). destruct (get_time ps (crun h)) as [t' used] eqn:Eg.
  assert (Hss : ssorted ps) by now apply set_inter_sorted.
  pose proof (C33_counts_the_clocks_used h ps Hss) as Hcnt. rewrite Eg in Hcnt. cbn [snd] in *.
  unfold participants in Hcnt. cbn [length] in Hcnt.
  set (rep := fun w : option bytes => match last_report h w with Some _ => true | None => false end) in *.
  set (good := fun q : bytes => rep (Some q)).
  assert (Elen : length (filter rep (map Some ps)) = length (filter good ps)).
  { clear. induction ps as [|q l IH]; [reflexivity|]. cbn. unfold good at 1. destruct (rep (Some q)); cbn; congruence. }
  rewrite Elen in Hcnt.
  set (others := filter (fun q => negb (beq q me)) voters).
  assert (Hnd : NoDup voters) by now apply MembershipProofs.ssorted_NoDup.
  assert (Hle : (length others <= length (filter good ps))%nat).
  { apply NoDup_incl_length; [now apply NoDup_filter|]. intros q Hq. apply filter_In in Hq as [Hq Hn].
    assert (q <> me) by (intros ->; now rewrite beq_refl in Hn).
    destruct (Hall q Hq H) as [H1 H2]. apply filter_In. split; [now apply set_inter_In|].
    unfold good, rep. destruct (last_report h (Some q)); congruence. }
  assert (Hlen : psize voters = N.of_nat (length others) + (if pmem me voters then 1 else 0)).
  { unfold psize. destruct (pmem me voters) eqn:Em.
    - unfold pmem in Em. apply existsb_exists in Em as [r [Hr Er]]. apply beq_eq in Er. subst r.
      enough (length voters = S (length others)) by lia.
      clear - Hnd Hr. unfold others. induction voters as [|v l IH]; [contradiction|]. inversion Hnd; subst. cbn.
      destruct (beq_spec v me); cbn.
      + subst. f_equal. clear - H1. induction l as [|x l IH]; [reflexivity|]. cbn. destruct (beq_spec x me); [subst; cbn in H1; tauto|].
        cbn. f_equal. apply IH. cbn in H1. tauto.
      + f_equal. apply IH; [assumption|]. destruct Hr; [contradiction|assumption].
    - enough (others = voters) as -> by lia. unfold others. clear - Em. induction voters as [|v l IH]; [reflexivity|].
      unfold pmem in *. cbn in *. apply Bool.orb_false_iff in Em as [E1 E2]. destruct (beq_spec v me).
      + subst. now rewrite beq_refl in E1.
      + cbn. now rewrite IH. }
  apply N.leb_le. destruct (pmem me voters); lia.
Qed.

Print Assumptions C33_within_range_of_any_majority.
Print Assumptions C33_is_a_reported_clock.
Print Assumptions C33_counts_the_clocks_used.
Print Assumptions C33_attested_time_heard_all_voters.
Print Assumptions C33_all_voters_heard_is_attested.
