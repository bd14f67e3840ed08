(* C74, C75: hosts find or create a group. *)
From Verif Require Import HostJoin HostJoinSpec HostJoinProofs.

(* C74: however many hosts start, die and interleave, they ask for at most one group *)
Theorem C74_one_creation w : jreached w -> (creations (j_acts w) <= 1)%nat.
Proof. intros H. apply (one_group w H). Qed.
(* ... and every host that has got into a group, says it is a member or is shown as one
   has got into the same group *)
Theorem C74_one_group w : jreached w ->
  exists c, forall h, has_group w h \/ is_member w h \/ announced w h -> in_group (j_acts w) c h.
Proof.
  intros H. destruct (one_group w H) as (_ & A & B).
  assert (C : forall h, has_group w h \/ is_member w h \/ announced w h -> has_group w h) by (intros h [X|X]; auto).
  destruct (j_lock w) as [c|] eqn:El.
  - assert (D : (exists c, In (c, ACreate true) (j_acts w)) \/ ~ exists c, In (c, ACreate true) (j_acts w)).
    { generalize (j_acts w). clear. induction l as [|[h a] l IH]; [right; now intros [c []]|].
      destruct IH as [[c Hc]|IH]; [left; exists c; now right|]. destruct a as [[]|p ok]; [left; exists h; now left| |];
        (right; intros [c [X|X]]; [discriminate X|eauto]). }
    destruct D as [[c' D]|D].
    + destruct A as [c0 A]; [exists c'; now left|]. exists c0. auto.
    + exists c. intros h Hh. exfalso. destruct (ji_group _ (jreached_inv w H) h (C h Hh)) as [c' Hg]. apply D. exists c'. clear -Hg. induction Hg; auto.
  - exists []. intros h Hh. exfalso. destruct (ji_group _ (jreached_inv w H) h (C h Hh)) as [c' Hg].
    pose proof (ji_lock _ (jreached_inv w H)) as X. rewrite El in X.
    assert (Y : In (c', ACreate true) (j_acts w)) by (clear -Hg; induction Hg; auto). exact (creations_0 _ _ _ X Y).
Qed.
(* each host joins through another host, at another address, whose enclave had got into
   a group before *)
Theorem C74_joins_through_others w a h p ok b : jreached w -> j_acts w = a ++ (h, AJoin p ok) :: b ->
  other_host w h p /\ had_group a p.
Proof. intros H. apply (ki_acts _ (jreached_kinv w H)). Qed.
(* of the members that it has found a host takes one that is not the leader if there is
   one, and among such one that was written last *)
Theorem C74_choice w h x found p pick : jreached w -> lookup h (j_hosts w) = Some x -> h_phase x = JList found ->
  (exists x', lookup h (j_hosts (jstep w (JListed h pick))) = Some x' /\ h_phase x' = JJoin p) ->
  exists e, In (p, e) found /\ pe_member e = true /\ p <> h /\ pe_addr e <> h_addr x /\
    forall k e', In (k, e') found -> pe_member e' = true -> k <> h -> pe_addr e' <> h_addr x ->
      (pe_leader e = true -> pe_leader e' = true) /\ (pe_leader e = pe_leader e' -> (pe_join e' <= pe_join e)%Z).
Proof.
  intros _ Hl Hp (x' & Hl' & Hp'). cbn [jstep] in Hl'. unfold on_host in Hl'. rewrite Hl, Hp in Hl'.
  destruct (candidates h (h_addr x) found) as [|c cs] eqn:Ec.
  { cbn in Hl'. rewrite lookup_put_same in Hl'. injection Hl' as <-. discriminate Hp'. }
  destruct (first_choice pick (c :: cs)) eqn:Ef; [|rewrite Hl in Hl'; injection Hl' as <-; congruence].
  cbn in Hl'. rewrite lookup_put_same in Hl'. injection Hl' as <-. cbn in Hp'. injection Hp' as <-.
  unfold first_choice in Ef. destruct (lookup pick (c :: cs)) as [e|] eqn:El; [|discriminate]. apply lookup_in in El. rewrite <- Ec in *.
  apply filter_In in El as [X Y]. cbn [fst snd] in Y. apply andb_prop in Y as [Y Ym]. apply Bool.negb_true_iff, Bool.orb_false_iff in Y as [Y1 Y2].
  exists e. split; [exact X|]. split; [exact Ym|]. split; [intros ->; rewrite beq_refl in Y1; discriminate|]. split; [intros E; rewrite E, beq_refl in Y2; discriminate|].
  intros k e' A B C D. rewrite forallb_forall in Ef. specialize (Ef (k, e')). cbn [snd] in Ef.
  assert (Z : negb (better e' e) = true). { apply Ef. apply filter_In. split; [exact A|]. cbn [fst snd]. rewrite B, Bool.andb_true_r. apply Bool.negb_true_iff, Bool.orb_false_iff. split; [destruct (beq_spec k h)|destruct (beq_spec (pe_addr e') (h_addr x))]; congruence. }
  unfold better in Z. destruct (pe_leader e), (pe_leader e'); cbn in Z; split; intros; try discriminate; try reflexivity; lia.
Qed.

(* three hosts 1, 2, 3: 1 and 2 race for the lock, 1 creates; 2 and then 3 join, 3 through
   2, which is not the leader *)
Definition x_race : list jevent :=
  [JStart [1] [11]; JStart [2] [12]; JInserted [1] true true; JInserted [2] true true;
   JFind [1] [2]; JListed [1] []; JListed [2] []; JSetNX [1] NxAnswered; JSetNX [2] NxAnswered;
   JDone [1] true; JDone [1] true; JMark [1] true 5; JFind [2] [1]; JListed [2] [1]; JDone [2] true; JDone [2] true; JMark [2] false 6;
   JStart [3] [13]; JInserted [3] true true; JFind [3] [1]; JFind [3] [2]; JFind [3] [3]; JListed [3] [1]; JListed [3] [2]; JDone [3] true; JDone [3] true].
Example x_one_group : let w := jrun jstart x_race in
  j_acts w = [([1], ACreate true); ([2], AJoin [1] true); ([3], AJoin [2] true)] /\
  is_member w [1] /\ is_member w [2] /\ is_member w [3] /\ in_group (j_acts w) [1] [3].
Proof.
  cbv zeta. split; [vm_compute; reflexivity|]. split; [eexists; split; vm_compute; reflexivity|]. split; [eexists; split; vm_compute; reflexivity|]. split; [eexists; split; vm_compute; reflexivity|].
  apply in_joined with (p := [2]); [vm_compute; tauto|]. apply in_joined with (p := [1]); [vm_compute; tauto|]. apply in_creator. vm_compute; tauto.
Qed.

(* C75: whatever has happened, a new host can get into a group.  This is false: nothing
   ever deletes the lock for creating a group.  When a host stops between taking it and
   being shown as a member, no host gets in any more, whatever happens. *)
Theorem C75_can_still_form_refuted :
  exists w, jreached w /\ (exists h addr, lookup h (j_hosts w) = Some (JHost addr JDead)) /\ creations (j_acts w) = 0%nat /\
    forall evs h, ~ is_member (jrun w evs) h.
Proof.
  exists (jrun jstart [JStart [1] [11]; JInserted [1] true true; JListed [1] []; JSetNX [1] NxAnswered; JDie [1]]).
  split; [eexists; reflexivity|]. split; [exists [1], [11]; vm_compute; reflexivity|]. split; [reflexivity|].
  intros evs h. apply stuck_nobody, stuck_run. split; [discriminate|]. split.
  - intros k e [H|[]]. injection H as <- <-. reflexivity.
  - intros h' x Hl. cbn in Hl. destruct (beq h' [1]); [|discriminate Hl]. injection Hl as <-. exact I.
Qed.
(* the same when no host stops at all: Redis takes the lock for host 1, but its answer is
   lost (peerdb.go:178-181), and host 1 finds its own lock taken from then on *)
Theorem C75_lost_answer_refuted :
  exists w, jreached w /\ (forall h x, lookup h (j_hosts w) = Some x -> h_phase x <> JDead) /\ j_acts w = [] /\
    forall evs h, ~ is_member (jrun w evs) h.
Proof.
  exists (jrun jstart [JStart [1] [11]; JInserted [1] true true; JListed [1] []; JSetNX [1] NxLost]).
  split; [eexists; reflexivity|]. split; [|split; [reflexivity|]].
  - intros h x Hl. cbn in Hl. destruct (beq h [1]); [|discriminate Hl]. injection Hl as <-. discriminate.
  - intros evs h. apply stuck_nobody, stuck_run. split; [discriminate|]. split.
    + intros k e [H|[]]. injection H as <- <-. reflexivity.
    + intros h' x Hl. cbn in Hl. destruct (beq h' [1]); [|discriminate Hl]. injection Hl as <-. intros k e [].
Qed.
(* the states from which no host gets in any more *)
Theorem C75_stuck_forever w evs h : stuck w -> ~ is_member (jrun w evs) h.
Proof. intros H. now apply stuck_nobody, stuck_run. Qed.
(* what does hold: when the lock is free, or Redis shows a member at another address, a
   new host can get in: it stores its entry, reads all entries and makes its choice.
   Missing: the lock is taken and Redis shows no such member *)
Theorem C75_can_get_in_partial w h addr : jreached w -> lookup h (j_hosts w) = None ->
  j_lock w = None \/ (exists m e, lookup m (j_peers w) = Some e /\ pe_member e = true /\ pe_addr e <> addr) ->
  let w1 := jrun w [JStart h addr; JInserted h true true] in
  let w2 := jrun w1 (list_all h w1) in
  exists pick, is_member (jrun w2 [JListed h pick; JSetNX h NxAnswered; JDone h true; JDone h true]) h.
Proof. exact (gets_in w h addr). Qed.
Example x_gets_in : let w := jrun jstart x_race in
  lookup [4] (j_hosts w) = None /\ j_lock w = Some [1] /\
  (exists m e, lookup m (j_peers w) = Some e /\ pe_member e = true /\ pe_addr e <> [11]).
Proof. cbv zeta. repeat split. exists [2]. eexists. split; [vm_compute; reflexivity|]. split; [reflexivity|discriminate]. Qed.
Lemma dead_all (l : list (bytes * jhost)) : map (fun kv => h_phase (snd kv)) l = repeat JDead (length l) -> forall h x, In (h, x) l -> h_phase x = JDead.
Proof. intros H h x Hin. apply (in_map (fun kv => h_phase (snd kv))) in Hin. rewrite H in Hin. exact (repeat_spec _ _ _ Hin). Qed.
(* the group is lost with all its hosts and their entries expire: stuck *)
Definition x_lost : jworld := jrun jstart (x_race ++ [JDie [1]; JDie [2]; JDie [3]; JExpire [1]; JExpire [2]]).
Example x_stuck : stuck x_lost.
Proof.
  unfold stuck. split; [vm_compute; discriminate|]. split.
  - assert (H : j_peers x_lost = [([3], PEntry [13] false false 0%Z)]) by (vm_compute; reflexivity).
    intros k e Hin. rewrite H in Hin. destruct Hin as [Hin|[]]. injection Hin as <- <-. reflexivity.
  - assert (H : forall h x, In (h, x) (j_hosts x_lost) -> h_phase x = JDead) by (apply dead_all; vm_compute; reflexivity).
    intros h x Hl. apply lookup_in in Hl. rewrite (H _ _ Hl). exact I.
Qed.

Print Assumptions C74_one_creation.
Print Assumptions C74_one_group.
Print Assumptions C74_joins_through_others.
Print Assumptions C74_choice.
Print Assumptions C75_can_still_form_refuted.
Print Assumptions C75_lost_answer_refuted.
Print Assumptions C75_stuck_forever.
Print Assumptions C75_can_get_in_partial.
