(* C110: a proof that DB4 accepted on one connection is of no use on another.
   The model is DB4.v (sess_run4, restore2_4); vocabulary in DB4Spec.v. *)
From Verif Require Import DB4 DB4Spec DB4Proofs UtilProofs.

(* The answer to a Restore2 at the end of what happened on a connection with a
   handshake hash. *)
Definition accepted (c : crypto4) (hh aid : bytes) (es : list sess4) (ap az : bytes) (v : N) (share : bytes) : Prop :=
  last (snd (sess_run4 c hh aid None (es ++ [SReq4 (Restore2_4 ap az v)]))) SA_Continue = SA_Resp (RspRestore2_4 S4_OK share).
(* The state that the last Restore1 on it left. *)
Definition restored (es : list sess4) (st : r2state) : Prop :=
  exists es0 auths t o es1, es = es0 ++ SEff4 (RspRestore1_4 S4_OK auths t, o) :: es1 /\
    none_of is_request es1 /\ none_of is_restore1_ok es1 /\
    st = match o with Some x => x | None => R2State [] [] [] 0 0 [] end.
(* What is true of the group: points can be subtracted, and multiples of a commitment
   differ. *)
Definition group (c : crypto4) : Prop :=
  (forall r r' p l, padd4 c r p = Some l -> padd4 c r' p = Some l -> r = r') /\
  (forall k k' p r, is_point c p = true -> smul4 c k p = Some r -> smul4 c k' p = Some r -> k = k').
(* Two different inputs with the same challenge. *)
Definition collision (c : crypto4) (x y : bytes) : Prop := x <> y /\ sc_reduce c (sha512 c x) = sc_reduce c (sha512 c y).

Lemma app_tail (a b a' b' : bytes) : length b = length b' -> a ++ b = a' ++ b' -> a = a' /\ b = b'.
Proof.
  intros L E. assert (La : length a = length a').
  { assert (X : length (a ++ b) = length (a' ++ b')) by now rewrite E. rewrite !app_length in X. lia. }
  revert a' La E. induction a as [|x a IH]; intros [|x' a'] La E; cbn in La; try lia; [split; [reflexivity|exact E]|].
  cbn in E. injection E as -> E. destruct (IH a' ltac:(lia) E) as [-> ->]. split; reflexivity.
Qed.

(* The same proof, accepted twice for the same commitment: then it was on connections
   with the same handshake, for the same blinded element; or there is a collision of
   challenges, and this is it. *)
Theorem C110_proof_is_for_one_session :
  forall c hh1 aid1 es1 v1 share1 hh2 aid2 es2 v2 share2 ap az,
  group c -> length hh1 = 32%nat -> length hh2 = 32%nat ->
  accepted c hh1 aid1 es1 ap az v1 share1 -> accepted c hh2 aid2 es2 ap az v2 share2 ->
  exists st1 st2, restored es1 st1 /\ restored es2 st2 /\
    (r2_auth st1 = r2_auth st2 ->
     (hh1 = hh2 /\ r2_blinded st1 = r2_blinded st2) \/
     collision c (ap ++ r2_blinded st1 ++ hh1) (ap ++ r2_blinded st2 ++ hh2)).
Proof.
  intros c hh1 aid1 es1 v1 share1 hh2 aid2 es2 v2 share2 ap az [GA GM] L1 L2 A1 A2.
  apply restore2_gated in A1 as (e0 & au & t & o & e1 & E1 & N1 & N1' & P1 & _).
  apply restore2_gated in A2 as (f0 & bu & t' & o' & f1 & E2 & N2 & N2' & P2 & _).
  set (st1 := match o with Some x => x | None => _ end) in P1. set (st2 := match o' with Some x => x | None => _ end) in P2.
  exists st1, st2. split; [exists e0, au, t, o, e1; auto|]. split; [exists f0, bu, t', o', f1; auto|].
  clearbody st1 st2. intros EA. destruct P1 as (l & r & _ & _ & PC & B1 & S1 & D1), P2 as (l' & r' & _ & _ & _ & B2 & S2 & D2).
  rewrite B1 in B2. injection B2 as <-. assert (r = r') by exact (GA _ _ _ _ D1 D2). subst r'. rewrite <- EA in S2.
  pose proof (GM _ _ _ _ PC S1 S2) as K.
  destruct (list_eq_dec N.eq_dec (ap ++ r2_blinded st1 ++ hh1) (ap ++ r2_blinded st2 ++ hh2)) as [E|E]; [left|right; split; [exact E|exact K]].
  apply app_inv_head in E. apply app_tail in E as [-> ->]; [split; reflexivity|congruence].
Qed.

(* The other way round: after a Restore1, with no request since, a proof that holds for
   it is accepted, and answered with the share of the version asked for. *)
Lemma keeps_state c hh aid es : forall s, none_of is_request es -> none_of is_restore1_ok es -> fst (sess_run4 c hh aid s es) = s.
Proof.
  induction es as [|e es IH]; intros s N1 N2; [reflexivity|]. apply none_of_cons in N1 as [R1 N1]. apply none_of_cons in N2 as [R2 N2].
  cbn [sess_run4]. destruct (sess_step4 c hh aid s e) as [s1 a] eqn:E. destruct (sess_run4 c hh aid s1 es) as [s2 l] eqn:G. cbn [fst].
  assert (s1 = s).
  { destruct e as [r|[resp o]]; [discriminate R1|]. cbn [sess_step4] in E.
    destruct resp as [| st ? ?| | | | | |]; try (injection E as <- _; reflexivity). destruct st; try (injection E as <- _; reflexivity). discriminate R2. }
  subst s1. specialize (IH s N1 N2). rewrite G in IH. exact IH.
Qed.
Theorem C110_valid_proof_is_accepted :
  forall c hh aid es st ap az v,
  length aid = 16%nat -> restored es st -> proof_ok c hh (r2_auth st) (r2_blinded st) ap az ->
  (v = r2_version st -> accepted c hh aid es ap az v (r2_enc st)) /\
  (v <> r2_version st -> v = r2_new_version st -> accepted c hh aid es ap az v (r2_new_enc st)).
Proof.
  intros c hh aid es st ap az v LA (es0 & auths & t & o & es1 & -> & N1 & N2 & ST) (l & r & IZ & IP & IC & B & S & D).
  assert (R : forall share, restore2_4 c hh ap az v st = RspRestore2_4 S4_OK share ->
              accepted c hh aid (es0 ++ SEff4 (RspRestore1_4 S4_OK auths t, o) :: es1) ap az v share).
  { intros share H. unfold accepted. rewrite sess_run_app.
    destruct (sess_run4 c hh aid None (es0 ++ SEff4 (RspRestore1_4 S4_OK auths t, o) :: es1)) as [s xs] eqn:E.
    assert (s = Some st).
    { rewrite sess_run_app in E. destruct (sess_run4 c hh aid None es0) as [s0 x0]. cbn [sess_run4 sess_step4] in E.
      pose proof (keeps_state c hh aid es1 (Some (match o with Some x => x | None => R2State [] [] [] 0 0 [] end)) N1 N2) as K.
      destruct (sess_run4 c hh aid (Some (match o with Some x => x | None => R2State [] [] [] 0 0 [] end)) es1) as [s1 x1]. cbn [fst] in K.
      injection E as <- _. rewrite K, ST. reflexivity. }
    subst s. cbn [sess_run4 sess_step4 snd]. rewrite last_last. unfold ID_SIZE4. rewrite LA. cbn [Nat.eqb negb].
    rewrite sc_from_spec, pt_from_spec, IZ, IP. cbn [bad orb]. rewrite H. reflexivity. }
  assert (V : restore2_4 c hh ap az v st =
              if v =? r2_version st then RspRestore2_4 S4_OK (r2_enc st)
              else if v =? r2_new_version st then RspRestore2_4 S4_OK (r2_new_enc st) else RspRestore2_4 S4_ERROR []).
  { unfold restore2_4. rewrite sc_from_spec, !pt_from_spec, IZ, B, IC, S, IP, D, ct_equals_spec. destruct (beq_spec l l) as [_|X]; [reflexivity|contradiction X; reflexivity]. }
  split.
  - intros ->. apply R. rewrite V, N.eqb_refl. reflexivity.
  - intros NE ->. apply R. rewrite V. destruct (N.eqb_spec (r2_new_version st) (r2_version st)); [contradiction|]. rewrite N.eqb_refl. reflexivity.
Qed.

(* A case: a group in which the proof is the challenge. *)
Definition toy : crypto4 := {| pt_valid := fun _ => true; sc_valid := fun _ => true; sc_add := fun a _ => a;
  smul4 := fun k _ => Some k; sbase4 := Some; padd4 := fun r _ => Some r; from_hash4 := fun _ => None;
  sha512 := fun x => x; sc_reduce := fun x => firstn 32 (skipn 64 x) |}.
Example C110_group : group toy.
Proof. split; intros; cbn in *; congruence. Qed.
Example C110_meets :
  accepted toy (repeat 5 32) (repeat 1 16) [SEff4 (RspRestore1_4 S4_OK [] 3, Some (R2State (repeat 2 32) [9] [8] 1 0 (repeat 4 32)))]
    (repeat 3 32) (repeat 5 32) 1 [9] /\
  ~ accepted toy (repeat 6 32) (repeat 1 16) [SEff4 (RspRestore1_4 S4_OK [] 3, Some (R2State (repeat 2 32) [9] [8] 1 0 (repeat 4 32)))]
    (repeat 3 32) (repeat 5 32) 1 [9].
Proof. split; [vm_compute; reflexivity|]. unfold accepted. vm_compute. discriminate. Qed.

Print Assumptions C110_proof_is_for_one_session.
Print Assumptions C110_valid_proof_is_accepted.
