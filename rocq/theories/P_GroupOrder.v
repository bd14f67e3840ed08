(* C72: good answers are in an order that fits time.  Vocabulary: GroupSpec.v,
   GroupOrderSpec.v. *)
From Verif Require Import Base RaftLog Raft RaftSpec RaftNet RaftNetSpec CoreTx CoreTxSpec Group GroupSpec GroupOrderSpec GroupProofs GroupOrderProofs
  P_Membership P_Raft P_RaftNet P_Group UtilProofs.

Section P.
Variable sz : sizes.
Variable hmac : bytes -> bytes -> bytes.
Variables D E : Type.
(* any database and any way to make a client's response *)
Variable apply : D -> bytes -> D * option E.
Variable respond : N -> E -> option bytes.
Variable min_voting : N.
Notation reached := (group_reached sz hmac apply respond min_voting).

(* There is one log such that each good answer belongs to the entry that the replica ran
   last; that entry is the request, and the answer is made from the effect that one
   machine running the log sees there. *)
Theorem C72_each_answer_has_a_place M sm L0 db0 evs g : reached M sm L0 db0 evs g -> gchanges_overlap M sm evs -> gno_clash g ->
  psize (g_rolled D E g) <= sm -> leaders_kept g ->
  exists rest, forall k q a, saw g k (Said E q a) -> success a -> ~ In k (g_rolled D E g) ->
    exists p e eff, answered_at g k q a (llen L0 + 1 + N.of_nat p) /\ runs_at apply db0 rest p e eff /\
      saw g k (Asked E q (e_inner e)) /\ fits_effect respond q a eff.
Proof.
  intros H1 H2 H3 H4 H5. destruct (one_database _ _ _ _ _ _ _ _ _ _ _ H1 H2 H3 H4) as (rest & Ht & _). exists rest. intros k q a H6 H7 H8.
  destruct (answers_ordered _ _ _ _ _ _ _ _ _ _ _ H1 H2 H3 H4 H5) as (Ha & _). destruct (Ha k q a H6 H7) as (i & e & eff & X1 & X2 & X3 & X4).
  destruct (Ht _ _ _ _ X2) as (p & -> & X5). exists p, e, eff. auto.
Qed.
(* no entry answers two requests, wherever they were made *)
Theorem C72_one_entry_one_request M sm L0 db0 evs g k1 q1 a1 k2 q2 a2 i : reached M sm L0 db0 evs g -> gchanges_overlap M sm evs -> gno_clash g ->
  psize (g_rolled D E g) <= sm -> leaders_kept g -> ~ In k1 (g_rolled D E g) ->
  success a1 -> success a2 -> answered_at g k1 q1 a1 i -> answered_at g k2 q2 a2 i -> k1 = k2 /\ q1 = q2.
Proof.
  intros H1 H2 H3 H4 H5 H6 S1 S2 X Y. destruct (answers_ordered _ _ _ _ _ _ _ _ _ _ _ H1 H2 H3 H4 H5) as (_ & Hb & _).
  destruct (Hb _ _ _ _ _ _ _ S1 S2 X Y) as (<- & _ & Hq). auto.
Qed.
(* ... nor the n-th requests of two replicas that were put back *)
Theorem C72_one_entry_one_request_of_anyone M sm L0 db0 evs g k1 q1 a1 k2 q2 a2 i : reached M sm L0 db0 evs g -> gchanges_overlap M sm evs -> gno_clash g ->
  psize (g_rolled D E g) <= sm -> leaders_kept g ->
  success a1 -> success a2 -> answered_at g k1 q1 a1 i -> answered_at g k2 q2 a2 i -> k1 = k2 /\ q_no q1 = q_no q2.
Proof.
  intros H1 H2 H3 H4 H5 S1 S2 X Y. destruct (answers_ordered _ _ _ _ _ _ _ _ _ _ _ H1 H2 H3 H4 H5) as (_ & Hb & _).
  destruct (Hb _ _ _ _ _ _ _ S1 S2 X Y) as (H & Hq & _). auto.
Qed.
(* no request is answered twice, and so none has two places *)
Theorem C72_one_request_one_entry M sm L0 db0 evs g k q a1 i1 a2 i2 : reached M sm L0 db0 evs g -> gchanges_overlap M sm evs -> gno_clash g ->
  psize (g_rolled D E g) <= sm -> leaders_kept g -> ~ In k (g_rolled D E g) ->
  answered_at g k q a1 i1 -> answered_at g k q a2 i2 -> i1 = i2 /\ a1 = a2.
Proof.
  intros H1 H2 H3 H4 H5 H6. destruct (answers_ordered _ _ _ _ _ _ _ _ _ _ _ H1 H2 H3 H4 H5) as (_ & _ & Hc & _). now apply Hc.
Qed.
(* a request's entry comes after all that any replica had run before the request was
   made: the answer to it tells of all of that *)
Theorem C72_place_after_all_that_ran M sm L0 db0 evs g i1 k q a i2 : reached M sm L0 db0 evs g -> gchanges_overlap M sm evs -> gno_clash g ->
  psize (g_rolled D E g) <= sm -> leaders_kept g -> ~ In k (g_rolled D E g) ->
  ran_before g i1 k q -> success a -> answered_at g k q a i2 -> i1 < i2.
Proof.
  intros H1 H2 H3 H4 H5 H6. destruct (answers_ordered _ _ _ _ _ _ _ _ _ _ _ H1 H2 H3 H4 H5) as (_ & _ & _ & Hd). now apply Hd.
Qed.
Lemma last_ran_in (k : bytes) (l : list (bytes * seen E)) i : last_ran k l = Some i -> exists l1 e eff l2, l = l1 ++ (k, Took E i e eff) :: l2.
Proof.
  induction l as [|[j y] l IH] using rev_ind; intros H; [discriminate|]. rewrite last_ran_app in H. unfold last_ran at 1 in H. cbn [fold_left fst snd] in H.
  destruct y as [q x|i' e eff|q a].
  - destruct (IH H) as (l1 & e & eff & l2 & ->). exists l1, e, eff, (l2 ++ [(j, Asked E q x)]). now rewrite <- app_assoc.
  - destruct (beq j k) eqn:B.
    + apply beq_eq in B. subst j. injection H as ->. exists l, e, eff, []. reflexivity.
    + destruct (IH H) as (l1 & e' & eff' & l2 & ->). exists l1, e', eff', (l2 ++ [(j, Took E i' e eff)]). now rewrite <- app_assoc.
  - destruct (IH H) as (l1 & e & eff & l2 & ->). exists l1, e, eff, (l2 ++ [(j, Said E q a)]). now rewrite <- app_assoc.
Qed.
(* so a request made after a good answer was given, at any two replicas, has its place
   after that answer's *)
Theorem C72_order_fits_time M sm L0 db0 evs g pre k1 q1 a1 mid k2 q2 x2 post i1 a2 i2 : reached M sm L0 db0 evs g -> gchanges_overlap M sm evs -> gno_clash g ->
  psize (g_rolled D E g) <= sm -> leaders_kept g -> ~ In k2 (g_rolled D E g) ->
  g_seen D E g = pre ++ (k1, Said E q1 a1) :: mid ++ (k2, Asked E q2 x2) :: post -> last_ran k1 pre = Some i1 ->
  success a2 -> answered_at g k2 q2 a2 i2 -> i1 < i2.
Proof.
  intros H1 H2 H3 H4 H5 H6 Hs Hl. apply (C72_place_after_all_that_ran M sm L0 db0 evs g i1 k2 q2 a2 i2 H1 H2 H3 H4 H5 H6).
  destruct (last_ran_in k1 pre i1 Hl) as (l1 & e & eff & l2 & ->). exists l1, k1, e, eff, (l2 ++ (k1, Said E q1 a1) :: mid), x2, post.
  rewrite Hs, <- !app_assoc. reflexivity.
Qed.
End P.

(* --- concrete groups ---------------------------------------------------------------- *)
Definition leaders_kept_b {D E} (g : group D E) : bool :=
  forallb (fun x => negb (existsb (beq (fst x)) (g_rolled D E g) && is_leader (c_node D (fst (snd x))))) (g_past D E g).
Lemma leaders_kept_b_sound {D E} (g : group D E) : leaders_kept_b g = true -> leaders_kept g.
Proof.
  intros H k s A Hk Hw. unfold leaders_kept_b in H. rewrite forallb_forall in H. specialize (H _ Hw). cbn [fst snd] in H.
  assert (X : existsb (beq k) (g_rolled D E g) = true) by (apply existsb_exists; exists k; split; [assumption|now apply beq_eq]). rewrite X in H.
  destruct (is_leader _); [discriminate|reflexivity].
Qed.
(* not vacuous: the group of C70 (P_Group.v).  2, which never led, was put back.  A client
   of 3 is answered at entry 2, which 1 had led; then asks again, and is answered at
   entry 4, which 3 led *)
Definition places {E} (l : list (bytes * seen E)) : list (N * N * option N) :=
  flat_map (fun j => match nth_error l j with
    | Some (k, Said _ q _) => [(hd 0 k, q_no q, last_ran k (firstn j l))] | _ => [] end) (seq 0 (length l)).
Example x_answers_ordered :
  group_reached toy_sizes toy_hmac sum told 2 x_group3 1 [] 100 (fst x_g70) (snd x_g70) /\
  gchanges_overlap x_group3 1 (fst x_g70) /\ gno_clash (snd x_g70) /\ psize (g_rolled N N (snd x_g70)) = 1 /\ leaders_kept (snd x_g70) /\
  places (g_seen N N (snd x_g70)) = [(3, 1, Some 2); (3, 2, Some 4)].
Proof.
  destruct x_group_answers as (H1 & H2 & H3 & H4 & _). split; [exact H1|]. split; [exact H2|]. split; [exact H3|]. split; [exact H4|].
  split; [apply leaders_kept_b_sound; vm_compute; reflexivity|vm_compute; reflexivity].
Qed.
(* The condition on leaders is needed.  1 leads, gives 3's request an entry and sends it
   to 2; then it is put back to the state in which it had just begun to lead, and gives 3's
   next request, for the same, the same entry.  3 runs it once and answers both: both
   are told 105, although each was to add 5 to 100.  Only one replica was put back,
   and the group allows for one. *)
Definition x_cmds72 : list gcmd :=
  [XOpen 3 9; XTick 1; XPass 1 2; XPass 2 1; XPass 1 3; XPass 3 1; XPass 1 3; XAsk 3 9 (IData [5]); XServe 1; XTold 3] ++
  xboth 3 1 2 ++ [XBack 1 8; XAsk 3 9 (IData [5]); XServe 1; XTold 3] ++ xboth 6 1 3 ++ xboth 6 1 2 ++ xboth 3 1 3 ++ [XTake 3; XTake 3].
Definition x_g72 := grun_cmds sum told 1 100 x_cmds72.
Example C72_leader_put_back :
  group_reached toy_sizes toy_hmac sum told 2 x_group3 1 [] 100 (fst x_g72) (snd x_g72) /\
  gchanges_overlap x_group3 1 (fst x_g72) /\ gno_clash (snd x_g72) /\ psize (g_rolled N N (snd x_g72)) = 1 /\ leaders_kept_b (snd x_g72) = false /\
  map view_of (g_seen N N (snd x_g72)) =
    [VAsked 3 1 9 (IData [5]); VAsked 3 2 9 (IData [5]); VTook 3 1 INone None; VTook 3 2 (IData [5]) (Some 105);
     VSaid 3 1 (SData [9; 105]); VSaid 3 2 (SData [9; 105])] /\
  places (g_seen N N (snd x_g72)) = [(3, 1, Some 2); (3, 2, Some 2)].
Proof.
  split; [refine (grun_cmds_reached sum told 1 100 x_cmds72 eq_refl _); eexists; vm_compute; reflexivity|].
  split; [apply gfixed_b_changes; vm_compute; reflexivity|].
  split; [apply gno_clash_b_sound; vm_compute; reflexivity|].
  repeat split; vm_compute; reflexivity.
Qed.

Print Assumptions C72_each_answer_has_a_place.
Print Assumptions C72_one_entry_one_request.
Print Assumptions C72_one_entry_one_request_of_anyone.
Print Assumptions C72_one_request_one_entry.
Print Assumptions C72_place_after_all_that_ran.
Print Assumptions C72_order_fits_time.
