(* C76: a request answered with an error that says "try again" was not run and never
   will be; and no request is run twice. *)
From Verif Require Import RaftSpec RaftNetSpec CoreTxSpec Group GroupSpec GroupRetrySpec GroupRetryProofs HostWeb
  P_Membership P_Raft P_RaftNet P_Group.

Section P.
Variable sz : sizes.
Variable hmac : bytes -> bytes -> bytes.
Variables D E : Type.
Variable apply : D -> bytes -> D * option E.
Variable respond : N -> E -> option bytes.
Variable min_voting : N.
Notation reached := (group_reached sz hmac apply respond min_voting).

(* The contents d of a request were asked for once, at a replica that was never put
   back.  It was answered "cancelled" or "leader unknown".  Then no replica has run d.
   g may be any later state, so none will. *)
Theorem C76_retry_means_not_run M sm L0 db0 evs g k q d code : reached M sm L0 db0 evs g -> gchanges_overlap M sm evs -> gno_clash g ->
  psize (g_rolled D E g) <= sm -> served_once evs -> asked_once g k q (IData d) -> ~ In k (g_rolled D E g) ->
  saw g k (Said E q (SError code)) -> retry_code code ->
  forall k' i e eff, saw g k' (Took E i e eff) -> e_inner e <> IData d.
Proof. intros. eapply retry_not_run; eauto. Qed.
(* The same of a client that sees its connection closed with 4014. *)
Theorem C76_unavailable_means_not_run M sm L0 db0 evs g k q d code : reached M sm L0 db0 evs g -> gchanges_overlap M sm evs -> gno_clash g ->
  psize (g_rolled D E g) <= sm -> served_once evs -> asked_once g k q (IData d) -> ~ In k (g_rolled D E g) ->
  saw g k (Said E q (SError code)) -> close_code (WEnclave code) = Some 4014 ->
  forall k' i e eff, saw g k' (Took E i e eff) -> e_inner e <> IData d.
Proof.
  intros H1 H2 H3 H4 H5 H6 H7 H8 H9. refine (C76_retry_means_not_run M sm L0 db0 evs g k q d code H1 H2 H3 H4 H5 H6 H7 H8 _).
  injection H9 as H9. unfold close_enclave, one_of in H9. cbn [existsb] in H9.
  repeat match type of H9 with context [if ?b then _ else _] => destruct b eqn:?; try discriminate H9 end.
  unfold retry_code. rewrite Bool.orb_false_r in *.
  match goal with X : orb _ _ = true |- _ => apply Bool.orb_true_iff in X as [X|X]; apply N.eqb_eq in X; subst code end; auto.
Qed.
(* Contents asked for once are run at one place of the log at most, whoever is put back. *)
Theorem C76_run_at_most_once M sm L0 db0 evs g k q d : reached M sm L0 db0 evs g -> gchanges_overlap M sm evs -> gno_clash g ->
  served_once evs -> asked_once g k q (IData d) -> ~ In k (g_rolled D E g) ->
  forall k1 i1 e1 eff1 k2 i2 e2 eff2, saw g k1 (Took E i1 e1 eff1) -> saw g k2 (Took E i2 e2 eff2) ->
  e_inner e1 = IData d -> e_inner e2 = IData d -> i1 = i2.
Proof. intros. eapply run_at_most_once; eauto. Qed.
End P.
(* which errors close a connection with 4014 *)
Theorem C76_unavailable_codes : forall code, close_code (WEnclave code) = Some 4014 <-> code = E_ClientCancelled \/ code = E_LeaderUnknown.
Proof.
  intros code. split.
  - intros H. injection H as H. unfold close_enclave, one_of in H. cbn [existsb] in H.
    repeat match type of H with context [if ?b then _ else _] => destruct b eqn:?; try discriminate H end.
    rewrite Bool.orb_false_r in *.
    match goal with X : orb _ _ = true |- _ => apply Bool.orb_true_iff in X as [X|X]; apply N.eqb_eq in X; subst code end; auto.
  - intros [-> | ->]; reflexivity.
Qed.

(* --- concrete groups ---------------------------------------------------------------- *)
Section X.
Context {D E : Type}.
Definition served_once_b (evs : list gevent) : bool :=
  forallb (fun ev => match ev with GServe _ j _ _ _ => Nat.leb (length (filter (serves j) evs)) 1 | _ => true end) evs.
Lemma served_once_b_sound evs : served_once_b evs = true -> served_once evs.
Proof.
  intros H j. destruct (existsb (serves j) evs) eqn:Ex.
  - apply existsb_exists in Ex as (ev & Hin & Hs). unfold served_once_b in H. rewrite forallb_forall in H. specialize (H _ Hin).
    destruct ev; try discriminate Hs. apply Nat.eqb_eq in Hs as ->. now apply Nat.leb_le.
  - replace (filter (serves j) evs) with (@nil gevent); [apply Nat.le_0_l|]. symmetry.
    enough (forall l, existsb (serves j) l = false -> filter (serves j) l = []) by auto.
    clear. induction l as [|a l IH]; [reflexivity|]. cbn. intros H. apply Bool.orb_false_iff in H as [-> H]. auto.
Qed.
Definition asks_b (d : bytes) (x : bytes * seen E) : bool := match snd x with Asked _ _ (IData d') => beq d' d | _ => false end.
Lemma asked_once_b (g : group D E) k q d : filter (asks_b d) (g_seen D E g) = [(k, Asked E q (IData d))] -> asked_once g k q (IData d).
Proof.
  intros H. assert (A : In (k, Asked E q (IData d)) (filter (asks_b d) (g_seen D E g))) by (rewrite H; now left).
  apply filter_In in A as [A _]. split; [exact A|]. intros k2 q2 B.
  assert (C : In (k2, Asked E q2 (IData d)) (filter (asks_b d) (g_seen D E g))).
  { apply filter_In. split; [exact B|]. cbn. apply beq_eq. reflexivity. }
  rewrite H in C. destruct C as [C|[]]. injection C as -> ->. auto.
Qed.
End X.
(* 2 is asked when it knows no leader.  1 is elected and takes a request, but does not
   get it to the others; 3 is elected, and its entries take that place. *)
Definition x_cmds76 : list gcmd :=
  [XOpen 2 7; XAsk 2 7 (IData [4]); XOpen 1 8; XTick 1; XPass 1 2; XPass 2 1; XPass 1 3; XPass 3 1] ++ xboth 4 1 2 ++ xboth 4 1 3 ++
  [XAsk 1 8 (IData [5]); XTick 3; XPass 3 2; XPass 2 3; XOpen 3 9; XAsk 3 9 (IData [6])] ++ xboth 6 3 2 ++ xboth 8 3 1 ++ xboth 2 3 2 ++ xboth 2 3 1 ++
  [XTake 1; XTake 1; XTake 1; XTake 1; XTake 3; XTake 3; XTake 3].
Definition x_g76 := grun_cmds sum told 0 100 x_cmds76.
Example x_try_again :
  group_reached toy_sizes toy_hmac sum told 2 x_group3 0 [] 100 (fst x_g76) (snd x_g76) /\
  gchanges_overlap x_group3 0 (fst x_g76) /\ gno_clash (snd x_g76) /\ g_rolled N N (snd x_g76) = [] /\ served_once (fst x_g76) /\
  asked_once (snd x_g76) (pid 2) (Req 1 1000 (AClient 7)) (IData [4]) /\
  asked_once (snd x_g76) (pid 1) (Req 1 1000 (AClient 8)) (IData [5]) /\
  map view_of (g_seen N N (snd x_g76)) =
    [VAsked 2 1 7 (IData [4]); VSaid 2 1 (SError 214); VAsked 1 1 8 (IData [5]); VAsked 3 1 9 (IData [6]);
     VTook 1 1 INone None; VTook 1 2 INone None; VSaid 1 1 (SError 712); VTook 1 3 (IData [6]) (Some 106);
     VTook 3 1 INone None; VTook 3 2 INone None; VTook 3 3 (IData [6]) (Some 106); VSaid 3 1 (SData [9; 106])].
Proof.
  split; [refine (grun_cmds_reached sum told 0 100 x_cmds76 eq_refl _); eexists; vm_compute; reflexivity|].
  split; [apply gfixed_b_changes; vm_compute; reflexivity|].
  split; [apply gno_clash_b_sound; vm_compute; reflexivity|].
  split; [vm_compute; reflexivity|].
  split; [apply served_once_b_sound; vm_compute; reflexivity|].
  split; [apply asked_once_b; vm_compute; reflexivity|].
  split; [apply asked_once_b; vm_compute; reflexivity|].
  vm_compute; reflexivity.
Qed.
(* A request of a client of 3 is forwarded to 1, and taken there; when 2 leads, it takes
   the same request again.  3 answers "try again", and the request is run. *)
Definition x_cmds76t : list gcmd :=
  [XOpen 3 9; XTick 1; XPass 1 2; XPass 2 1; XPass 1 3; XPass 3 1] ++ xboth 4 1 2 ++ xboth 4 1 3 ++
  [XAsk 3 9 (IData [5]); XServe 1; XTold 3; XTick 2; XPass 2 3; XPass 3 2; XServe 2] ++ xboth 8 2 3 ++
  [XTake 3; XTake 3; XTake 3; XTake 3].
Definition x_g76t := grun_cmds sum told 0 100 x_cmds76t.
Example C76_needs_requests_served_once :
  group_reached toy_sizes toy_hmac sum told 2 x_group3 0 [] 100 (fst x_g76t) (snd x_g76t) /\
  gchanges_overlap x_group3 0 (fst x_g76t) /\ gno_clash (snd x_g76t) /\ g_rolled N N (snd x_g76t) = [] /\ ~ served_once (fst x_g76t) /\
  asked_once (snd x_g76t) (pid 3) (Req 1 1000 (AClient 9)) (IData [5]) /\
  map view_of (g_seen N N (snd x_g76t)) =
    [VAsked 3 1 9 (IData [5]); VTook 3 1 INone None; VTook 3 2 INone None; VSaid 3 1 (SError 712); VTook 3 3 (IData [5]) (Some 105)].
Proof.
  split; [refine (grun_cmds_reached sum told 0 100 x_cmds76t eq_refl _); eexists; vm_compute; reflexivity|].
  split; [apply gfixed_b_changes; vm_compute; reflexivity|].
  split; [apply gno_clash_b_sound; vm_compute; reflexivity|].
  split; [vm_compute; reflexivity|].
  split; [intros H; specialize (H 0%nat); revert H; replace (length (filter (serves 0) (fst x_g76t))) with 2%nat by (vm_compute; reflexivity); lia|].
  split; [apply asked_once_b; vm_compute; reflexivity|].
  vm_compute; reflexivity.
Qed.

Print Assumptions C76_retry_means_not_run.
Print Assumptions C76_unavailable_means_not_run.
Print Assumptions C76_run_at_most_once.
Print Assumptions C76_unavailable_codes.
Print Assumptions C76_needs_requests_served_once.
