(* C70: a group of replicas acts as one machine with one database.
   C71: in a group, as often as replicas are put back, a PIN can be guessed wrongly
   fewer times than the tries it was set with. *)
From Verif Require Import DB2 DB2Spec P_DB2 Membership MembershipSpec MembershipProofs RaftSpec RaftNetSpec RaftMoveSpec RaftMoveProofs CoreTxSpec GroupSpec GroupPin GroupPinSpec GroupProofs GroupPinProofs
  P_Membership P_Raft P_RaftNet.

Section P.
Variable sz : sizes.
Variable hmac : bytes -> bytes -> bytes.
Variables D E : Type.
(* any database and any way to make a client's response *)
Variable apply : D -> bytes -> D * option E.
Variable respond : N -> E -> option bytes.
Variable min_voting : N.
Notation reached := (group_reached sz hmac apply respond min_voting).
Notation c_node := (c_node D).

(* There is one log such that: what any replica ever runs at an index is the entry
   the log has there, with the effect that one machine running the log sees; every
   database any replica ever has is the one machine's after some entries of the log;
   the log holds requests that were made, and nothing else but empty entries and
   changes of the membership that were asked for; a good
   answer goes to a request that is in the log, and is made from its effect there. *)
Theorem C70_one_database M sm L0 db0 evs g : reached M sm L0 db0 evs g -> gchanges_overlap M sm evs -> gno_clash g ->
  psize (g_rolled D E g) <= sm ->
  exists rest,
    (forall k i e eff, saw g k (Took E i e eff) -> exists p, i = llen L0 + 1 + N.of_nat p /\ runs_at apply db0 rest p e eff) /\
    (forall k s A, gwas g k s A -> exists j, (j <= length rest)%nat /\ n_applied (c_node s) = llen L0 + N.of_nat j /\
       c_db D s = fst (run_all apply db0 (firstn j rest))) /\
    (forall e, In e rest -> e_inner e = INone \/ (exists k q, saw g k (Asked E q (e_inner e))) \/
       exists gr, e_inner e = IMember gr /\ forall m, from_proto gr = (m, M_OK) -> m = M \/ asked_for evs m) /\
    (forall k q a, saw g k (Said E q a) -> success a -> ~ In k (g_rolled D E g) ->
       exists x p e eff, saw g k (Asked E q x) /\ saw g k (Took E (llen L0 + 1 + N.of_nat p) e eff) /\
         runs_at apply db0 rest p e eff /\ e_inner e = x /\ fits_effect respond q a eff).
Proof.
  intros H1 H2 H3 H4. destruct (one_database _ _ _ _ _ _ _ _ _ _ _ H1 H2 H3 H4) as (rest & A & B & C & F & _). exists rest. auto.
Qed.
(* a replica that was put back answers too; all it says is an effect in the log *)
Theorem C70_answers_of_rolled_back_replicas M sm L0 db0 evs g k q a : reached M sm L0 db0 evs g -> gchanges_overlap M sm evs -> gno_clash g ->
  psize (g_rolled D E g) <= sm -> saw g k (Said E q a) -> success a ->
  exists i e eff, saw g k (Took E i e eff) /\ fits_effect respond q a eff.
Proof.
  intros H1 H2 H3 H4 H5 H6. destruct (one_database _ _ _ _ _ _ _ _ _ _ _ H1 H2 H3 H4) as (rest & _ & _ & _ & _ & H).
  destruct (H k q a H5 H6) as (p & e & eff & H7 & _ & H8). eauto.
Qed.
(* two replicas that run the same index run the same entry and see the same effect *)
Theorem C70_same_effects M sm L0 db0 evs g i k1 e1 eff1 k2 e2 eff2 : reached M sm L0 db0 evs g -> gchanges_overlap M sm evs -> gno_clash g ->
  psize (g_rolled D E g) <= sm -> saw g k1 (Took E i e1 eff1) -> saw g k2 (Took E i e2 eff2) -> e1 = e2 /\ eff1 = eff2.
Proof.
  intros H1 H2 H3 H4 H5 H6. destruct (one_database _ _ _ _ _ _ _ _ _ _ _ H1 H2 H3 H4) as (rest & H & _).
  destruct (H _ _ _ _ H5) as (p1 & X1 & Y1 & Z1). destruct (H _ _ _ _ H6) as (p2 & X2 & Y2 & Z2).
  assert (p1 = p2) as <- by lia. split; congruence.
Qed.
(* two replicas that have applied the same number of entries have the same database *)
Theorem C70_same_databases M sm L0 db0 evs g k1 s1 A1 k2 s2 A2 : reached M sm L0 db0 evs g -> gchanges_overlap M sm evs -> gno_clash g ->
  psize (g_rolled D E g) <= sm -> gwas g k1 s1 A1 -> gwas g k2 s2 A2 -> n_applied (c_node s1) = n_applied (c_node s2) ->
  c_db D s1 = c_db D s2.
Proof.
  intros H1 H2 H3 H4 H5 H6 H7. destruct (one_database _ _ _ _ _ _ _ _ _ _ _ H1 H2 H3 H4) as (rest & _ & H & _).
  destruct (H _ _ _ H5) as (j1 & _ & X1 & Y1). destruct (H _ _ _ H6) as (j2 & _ & X2 & Y2). assert (j1 = j2) as <- by lia. congruence.
Qed.
(* a replica runs every entry up to the last it runs: none is left out *)
Theorem C70_no_entry_left_out M sm L0 db0 evs g k i e eff j : reached M sm L0 db0 evs g -> gchanges_overlap M sm evs -> gno_clash g ->
  saw g k (Took E i e eff) -> llen L0 < j -> j <= i -> exists e' eff', saw g k (Took E j e' eff').
Proof. apply took_before. Qed.
End P.

(* Entry ib sets the PIN of an account, with t tries.  Up to entry [last] no other
   entry sets a PIN for it.  However many replicas are asked, and with up to sm of them
   put back as often as the host likes: the entries up to [last] that any replica
   found to hold a wrong guess for the account are fewer than t. *)
Theorem C71_wrong_guesses_bounded sz hmac parse respond min_voting M sm L0 db0 evs (g : group db2 resp2) id data pin t kb ib eb effb last places :
  reachable2 db0 -> group_reached sz hmac (apply_db2 parse) respond min_voting M sm L0 db0 evs g ->
  gchanges_overlap M sm evs -> gno_clash g -> psize (g_rolled db2 resp2 g) <= sm ->
  saw g kb (Took resp2 ib eb effb) -> request parse eb = Some (Log2 id (Backup data pin t)) -> legal (Log2 id (Backup data pin t)) = true ->
  (forall k i e eff, saw g k (Took resp2 i e eff) -> ib < i -> i <= last -> ~ sets_pin parse id e) ->
  NoDup places ->
  (forall i, In i places -> ib < i /\ i <= last /\ exists k e guess d n,
     saw g k (Took resp2 i e (Some (RspRestore RS_PIN_MISMATCH d n))) /\ request parse e = Some (Log2 id (Restore guess))) ->
  N.of_nat (length places) < t.
Proof. apply wrong_guesses. Qed.
(* What all replicas answer is what one store answers that runs one list of requests:
   all that C01-C05 say of one store holds of a group. *)
Theorem C71_one_store sz hmac parse respond min_voting M sm L0 h0 rs0 db0 evs (g : group db2 resp2) :
  exec2 [] h0 = Ret (db0, rs0) -> group_reached sz hmac (apply_db2 parse) respond min_voting M sm L0 db0 evs g ->
  gchanges_overlap M sm evs -> gno_clash g -> psize (g_rolled db2 resp2 g) <= sm ->
  exists h pos,
    (forall k i e eff l, saw g k (Took resp2 i e eff) -> request parse e = Some l ->
       exists h1 h2 m rs, h0 ++ h = h1 ++ In2 true l :: h2 /\ length h1 = pos i /\
         exec2 [] (h1 ++ [In2 true l]) = Ret (m, rs) /\ last_answer rs = eff) /\
    (forall k i e eff l k' i' e' eff' l', saw g k (Took resp2 i e eff) -> request parse e = Some l ->
       saw g k' (Took resp2 i' e' eff') -> request parse e' = Some l' -> i < i' -> (pos i < pos i')%nat).
Proof. apply one_store. Qed.
(* For example, of a group that starts with an empty store: data is only ever found for
   a guess that is the PIN which the account's last Backup in the log has set. *)
Theorem C71_data_only_for_the_pin sz hmac parse respond min_voting M sm L0 evs (g : group db2 resp2) k i e id guess d n :
  group_reached sz hmac (apply_db2 parse) respond min_voting M sm L0 [] evs g ->
  gchanges_overlap M sm evs -> gno_clash g -> psize (g_rolled db2 resp2 g) <= sm ->
  saw g k (Took resp2 i e (Some (RspRestore RS_OK d n))) -> request parse e = Some (Log2 id (Restore guess)) ->
  exists ib eb effb t, saw g k (Took resp2 ib eb effb) /\ ib < i /\
    request parse eb = Some (Log2 id (Backup d guess t)) /\ legal (Log2 id (Backup d guess t)) = true /\
    forall k' j ej eff, saw g k' (Took resp2 j ej eff) -> ib < j -> j < i -> ~ sets_pin parse id ej.
Proof. apply data_for_pin. Qed.

(* --- a concrete group --------------------------------------------------------------- *)
Section X.
Context {D E : Type}.
Variable apply : D -> bytes -> D * option E.
Variable respond : N -> E -> option bytes.
Notation gstep := (gstep toy_sizes toy_hmac D E apply respond 2).
Notation grun := (grun toy_sizes toy_hmac D E apply respond 2).
Inductive gcmd :=
| XTick (k : N) | XPass (from to : N) | XOpen (k c : N) | XAsk (k c : N) (x : inner) | XTake (k : N) | XBack (k : N) (j : nat)
| XServe (k : N)    (* k receives the last request forwarded *)
| XTold (k : N)     (* k receives the last answer *)
| XChange (k : N) (gr : rgroup).    (* k is asked for the membership gr *)
Definition gevent_of (g : group D E) (c : gcmd) : gevent :=
  match c with
  | XTick k => GCall (pid k) (CRaft (OTick true 1))
  | XPass from k => GDeliver (pid k) (last_such from k (g_soup D E g) 0 (length (g_soup D E g))) true true 1
  | XOpen k c => GCall (pid k) (COpen c)
  | XAsk k c x => GCall (pid k) (CWrite 1000 (AClient c) x true 1 true)
  | XTake k => GCall (pid k) (CTake true)
  | XBack k j => GRollback (pid k) j
  | XServe k => GServe (pid k) (length (g_fwd D E g) - 1) true true 1
  | XTold k => GAnswer (pid k) (length (g_ans D E g) - 1)
  | XChange k gr => GChange (pid k) true true 1 gr
  end.
Fixpoint gevents_of (g : group D E) (cs : list gcmd) : list gevent :=
  match cs with [] => [] | c :: cs' => let ev := gevent_of g c in ev :: gevents_of (gstep g ev) cs' end.
Fixpoint xboth (n : nat) (a b : N) : list gcmd := match n with O => [] | S n' => XPass a b :: XPass b a :: xboth n' a b end.
Definition x_gstart (sm : N) (db0 : D) : outcome (group D E) := gstart toy_sizes toy_hmac D E 77 x_group3 sm [] db0 (map (x_seat 1000) [1; 2; 3]).
Definition grun_cmds (sm : N) (db0 : D) (cs : list gcmd) : list gevent * group D E :=
  match x_gstart sm db0 with
  | Ret g => let evs := gevents_of g cs in (evs, grun g evs)
  | Crash => ([], Grp D E [] [] [] [] [] [] [])
  end.
Lemma grun_cmds_reached sm db0 cs : sm < 3 -> (exists g0, x_gstart sm db0 = Ret g0) ->
  group_reached toy_sizes toy_hmac apply respond 2 x_group3 sm [] db0 (fst (grun_cmds sm db0 cs)) (snd (grun_cmds sm db0 cs)).
Proof.
  intros Hm [g0 Eg]. exists 77, (map (x_seat 1000) [1; 2; 3]), g0. split; [apply x_may3; assumption|]. split; [exact Eg|].
  unfold grun_cmds. rewrite Eg. reflexivity.
Qed.
Definition gfixed_b (evs : list gevent) : bool :=
  forallb (fun ev => match ev with GCall _ (CWrite _ _ (IMember _) _ _ _) | GChange _ _ _ _ _ => false | _ => true end) evs.
Lemma gfixed_b_sound evs : gfixed_b evs = true -> gfixed evs.
Proof.
  intros H ev gr Hin Ha. unfold gfixed_b in H. rewrite forallb_forall in H. specialize (H _ Hin).
  destruct Ha as [(k & attested & ok & rnd & ->)|(k & tx & by_ & ok & rnd & b & ->)]; discriminate.
Qed.
Lemma gfixed_b_changes sm evs : sm < 3 -> gfixed_b evs = true -> gchanges_overlap x_group3 sm evs.
Proof. intros H1 H2. apply fixed_gchanges; [exact H1|reflexivity|]. now apply gfixed_b_sound. Qed.
(* all changes asked for are to members 1, 2, 3 with voters 1, 2 or 1, 2, 3 *)
Definition x_voters (vs : list N) : rgroup := map (fun k => Replica (pid k) (existsb (N.eqb k) vs)) [1; 2; 3].
Definition gmoves_b (evs : list gevent) : bool :=
  forallb (fun ev => match ev with
    | GCall _ (CWrite _ _ (IMember gr) _ _ _) | GChange _ _ _ _ gr =>
        match from_proto gr with (m, M_OK) => existsb (fun v => if list_eq_dec (list_eq_dec N.eq_dec) (m_voting m) v then true else false) [map pid [1; 2]; map pid [1; 2; 3]] | _ => true end
    | _ => true end) evs.
Lemma gmoves_b_sound evs : gmoves_b evs = true -> gchanges_overlap x_group3 1 evs.
Proof.
  intros H. exists (fun m => wf_members m /\ voters_or_one_more (map pid [1; 2]) (pid 3) m).
  assert (Hv : forall m, existsb (fun v => if list_eq_dec (list_eq_dec N.eq_dec) (m_voting m) v then true else false) [map pid [1; 2]; map pid [1; 2; 3]] = true ->
    voters_or_one_more (map pid [1; 2]) (pid 3) m).
  { intros m Hm. apply existsb_exists in Hm as (v & Hin & Hd). destruct (list_eq_dec _ _ _) as [Hd'|]; [|discriminate].
    destruct Hin as [<-|[<-|[]]]; [left|right]; intros y; rewrite Hd'; cbn [map In]; intuition auto. }
  split; [split; [exact (proj1 (x_may3 1 1000 eq_refl))|apply Hv; reflexivity]|].
  split; [apply one_more_overlap; [repeat constructor; cbn; intuition discriminate|reflexivity|reflexivity|cbn; intuition discriminate]|].
  intros ev gr m Hin Ha Em. split; [now apply from_proto_wf in Em|]. apply Hv. unfold gmoves_b in H. rewrite forallb_forall in H. specialize (H _ Hin).
  destruct Ha as [(k & attested & ok & rnd & ->)|(k & tx & by_ & ok & rnd & b & ->)]; rewrite Em in H; exact H.
Qed.
Definition gno_clash_b (g : group D E) : bool := no_clash_b (Net [] (map (fun kv => (fst kv, (c_node D (fst (snd kv)), snd (snd kv)))) (g_past D E g)) [] [] []).
Lemma gno_clash_b_sound g : gno_clash_b g = true -> gno_clash g.
Proof.
  intros H k1 s1 A1 k2 s2 A2 H1 H2. eapply (no_clash_b_sound _ H k1 (c_node D s1) A1 k2 (c_node D s2) A2); unfold was; cbn [w_past]; apply in_map_iff.
  - exists (k1, (s1, A1)). auto.
  - exists (k2, (s2, A2)). auto.
Qed.
(* what was seen, for reading *)
Inductive view_ := VAsked (k no c : N) (x : inner) | VTook (k i : N) (x : inner) (eff : option E) | VSaid (k no : N) (a : say).
Definition view_of (x : bytes * seen E) : view_ :=
  match snd x with
  | Asked _ q y => VAsked (hd 0 (fst x)) (q_no q) (match q_by q with AClient c => c | AHost => 0 end) y
  | Took _ i e eff => VTook (hd 0 (fst x)) i (e_inner e) eff
  | Said _ q a => VSaid (hd 0 (fst x)) (q_no q) a
  end.
End X.
Arguments VAsked {E}. Arguments VTook {E}. Arguments VSaid {E}.

(* A database that is a number, to which requests add.  1 is elected.  A client asks 3,
   which forwards the request to 1; all run it; 3 answers.  2 is put back to its first
   state; 3 is elected with its vote; a client of 3 asks again. *)
Definition sum (db : N) (d : bytes) : N * option N := match d with [x] => (db + x, Some (db + x)) | _ => (db, None) end.
Definition told (c : N) (ef : N) : option bytes := Some [c; ef].
Definition x_cmds70 : list gcmd :=
  [XOpen 3 9; XOpen 1 8; XTick 1; XPass 1 2; XPass 2 1; XPass 1 3; XPass 3 1; XPass 1 3; XAsk 3 9 (IData [5]); XServe 1; XTold 3] ++
  xboth 6 1 2 ++ xboth 6 1 3 ++ xboth 3 1 2 ++ xboth 2 1 3 ++ [XTake 1; XTake 1; XTake 3; XTake 3; XBack 2 1;
   XTick 3; XPass 3 2; XPass 2 3; XPass 3 1; XPass 1 3; XAsk 3 9 (IData [6])] ++ xboth 6 3 1 ++ xboth 6 3 2 ++ xboth 4 3 1 ++ xboth 2 3 2 ++
  [XTake 3; XTake 3; XTake 2; XTake 2; XTake 2; XTake 2].
Definition x_g70 := grun_cmds sum told 1 100 x_cmds70.
Example x_group_answers :
  group_reached toy_sizes toy_hmac sum told 2 x_group3 1 [] 100 (fst x_g70) (snd x_g70) /\
  gchanges_overlap x_group3 1 (fst x_g70) /\ gno_clash (snd x_g70) /\ psize (g_rolled N N (snd x_g70)) = 1 /\
  map view_of (g_seen N N (snd x_g70)) =
    [VAsked 3 1 9 (IData [5]); VTook 1 1 INone None; VTook 1 2 (IData [5]) (Some 105); VTook 3 1 INone None;
     VTook 3 2 (IData [5]) (Some 105); VSaid 3 1 (SData [9; 105]); VAsked 3 2 9 (IData [6]); VTook 3 3 INone None;
     VTook 3 4 (IData [6]) (Some 111); VSaid 3 2 (SData [9; 111]); VTook 2 1 INone None; VTook 2 2 (IData [5]) (Some 105);
     VTook 2 3 INone None; VTook 2 4 (IData [6]) (Some 111)].
Proof.
  split; [refine (grun_cmds_reached sum told 1 100 x_cmds70 eq_refl _); eexists; vm_compute; reflexivity|].
  split; [apply gfixed_b_changes; vm_compute; reflexivity|].
  split; [apply gno_clash_b_sound; vm_compute; reflexivity|].
  split; vm_compute; reflexivity.
Qed.

(* 1 is elected and asked for 3 to vote no more; then 2 is put back to its first state,
   and 1 is asked for 3 to vote again *)
Definition x_cmds70m : list gcmd :=
  [XOpen 3 9; XOpen 1 8; XTick 1; XPass 1 2; XPass 2 1; XPass 1 3; XPass 3 1; XAsk 1 8 (IData [5]); XChange 1 (x_voters [1; 2]); XAsk 1 8 (IData [6])] ++
  xboth 8 1 2 ++ xboth 8 1 3 ++ xboth 3 1 2 ++ [XTake 1; XTake 1; XTake 1; XTake 1; XBack 2 1; XAsk 1 8 (IData [7]); XChange 1 (x_voters [1; 2; 3])] ++
  xboth 12 1 2 ++ xboth 8 1 3 ++ xboth 3 1 2 ++ [XTake 1; XTake 1; XTake 2; XTake 2; XTake 2; XTake 2; XTake 2].
Definition x_g70m := grun_cmds sum told 1 100 x_cmds70m.
Example x_group_moves :
  group_reached toy_sizes toy_hmac sum told 2 x_group3 1 [] 100 (fst x_g70m) (snd x_g70m) /\
  gchanges_overlap x_group3 1 (fst x_g70m) /\ gno_clash (snd x_g70m) /\ psize (g_rolled N N (snd x_g70m)) = 1 /\
  map view_of (g_seen N N (snd x_g70m)) =
    [VAsked 1 1 8 (IData [5]); VAsked 1 2 8 (IData [6]); VTook 1 1 INone None; VTook 1 2 (IData [5]) (Some 105); VSaid 1 1 (SData [8; 105]);
     VTook 1 3 (IMember (x_voters [1; 2])) None; VTook 1 4 (IData [6]) (Some 111); VSaid 1 2 (SData [8; 111]);
     VAsked 1 3 8 (IData [7]); VTook 1 5 (IData [7]) (Some 118); VSaid 1 3 (SData [8; 118]); VTook 1 6 (IMember (x_voters [1; 2; 3])) None;
     VTook 2 1 INone None; VTook 2 2 (IData [5]) (Some 105); VTook 2 3 (IMember (x_voters [1; 2])) None; VTook 2 4 (IData [6]) (Some 111);
     VTook 2 5 (IData [7]) (Some 118)].
Proof.
  split; [refine (grun_cmds_reached sum told 1 100 x_cmds70m eq_refl _); eexists; vm_compute; reflexivity|].
  split; [apply gmoves_b_sound; vm_compute; reflexivity|].
  split; [apply gno_clash_b_sound; vm_compute; reflexivity|].
  split; vm_compute; reflexivity.
Qed.
(* An account with 3 tries.  At 1: Backup, Expose, the right PIN, a wrong one.  2 is put
   back to its first state and helps to elect 3; there, two more wrong guesses. *)
Definition x_id : bytes := repeat 7 16. Definition x_pin : bytes := repeat 1 32. Definition x_bad : bytes := repeat 2 32. Definition x_data : bytes := repeat 3 20.
Definition x_parse (d : bytes) : option log2 :=
  match d with
  | [1] => Some (Log2 x_id (Backup x_data x_pin 3)) | [2] => Some (Log2 x_id (Expose x_data))
  | [3] => Some (Log2 x_id (Restore x_bad)) | [4] => Some (Log2 x_id (Restore x_pin)) | _ => None
  end.
Definition x_reply (c : N) (r : resp2) : option bytes := Some [c].
Definition x_cmds71 : list gcmd :=
  [XOpen 1 8; XOpen 3 9; XTick 1; XPass 1 2; XPass 2 1; XPass 1 3; XPass 3 1; XAsk 1 8 (IData [1]); XAsk 1 8 (IData [2]); XAsk 1 8 (IData [4]); XAsk 1 8 (IData [3])] ++
  xboth 8 1 2 ++ xboth 8 1 3 ++ xboth 3 1 2 ++ xboth 2 1 3 ++ [XTake 1; XTake 1; XTake 1; XTake 1; XTake 1; XBack 2 1;
   XTick 3; XPass 3 2; XPass 2 3; XPass 3 1; XPass 1 3; XAsk 3 9 (IData [3]); XAsk 3 9 (IData [3])] ++ xboth 6 3 1 ++ xboth 6 3 2 ++ xboth 4 3 1 ++ xboth 2 3 2 ++
  [XTake 3; XTake 3; XTake 3; XTake 3; XTake 3; XTake 3; XTake 3; XTake 3; XTake 2; XTake 2].
Definition x_g71 := grun_cmds (apply_db2 x_parse) x_reply 1 [] x_cmds71.
Definition x_found (g : group db2 resp2) : list (N * N * option resp2) :=
  flat_map (fun v => match v with VTook k i (IData [3]) eff => [(k, i, eff)] | _ => [] end) (map view_of (g_seen db2 resp2 g)).
Example x_guesses :
  group_reached toy_sizes toy_hmac (apply_db2 x_parse) x_reply 2 x_group3 1 [] [] (fst x_g71) (snd x_g71) /\
  gchanges_overlap x_group3 1 (fst x_g71) /\ gno_clash (snd x_g71) /\ psize (g_rolled db2 resp2 (snd x_g71)) = 1 /\
  legal (Log2 x_id (Backup x_data x_pin 3)) = true /\
  x_found (snd x_g71) = [(1, 5, Some (RspRestore RS_PIN_MISMATCH [] 2)); (3, 5, Some (RspRestore RS_PIN_MISMATCH [] 2));
                         (3, 7, Some (RspRestore RS_PIN_MISMATCH [] 1)); (3, 8, Some (RspRestore RS_MISSING [] 0))].
Proof.
  split; [refine (grun_cmds_reached (apply_db2 x_parse) x_reply 1 [] x_cmds71 eq_refl _); eexists; vm_compute; reflexivity|].
  split; [apply gfixed_b_changes; vm_compute; reflexivity|].
  split; [apply gno_clash_b_sound; vm_compute; reflexivity|].
  split; [vm_compute; reflexivity|]. split; vm_compute; reflexivity.
Qed.
(* C71's bound on replicas put back is tight: with super_majority 0 and one replica put
   back, a host finds four entries with wrong guesses for an account with 3 tries *)
Definition x_cmds71t : list gcmd :=
  [XOpen 1 8; XOpen 3 9; XTick 1; XPass 1 2; XPass 2 1; XPass 1 3; XPass 3 1; XAsk 1 8 (IData [1]); XAsk 1 8 (IData [2])] ++
  xboth 6 1 2 ++ xboth 6 1 3 ++ [XAsk 1 8 (IData [3]);XAsk 1 8 (IData [3])] ++ xboth 6 1 2 ++
  [XTake 1; XTake 1; XTake 1; XTake 1; XTake 1; XBack 2 22;
   XTick 3; XPass 3 2; XPass 2 3; XAsk 3 9 (IData [3]); XAsk 3 9 (IData [3])] ++ xboth 9 3 2 ++
  [XTake 3; XTake 3; XTake 3; XTake 3; XTake 3; XTake 3].
Definition x_g71t := grun_cmds (apply_db2 x_parse) x_reply 0 [] x_cmds71t.
Example C71_bound_is_tight :
  group_reached toy_sizes toy_hmac (apply_db2 x_parse) x_reply 2 x_group3 0 [] [] (fst x_g71t) (snd x_g71t) /\
  gchanges_overlap x_group3 0 (fst x_g71t) /\ gno_clash (snd x_g71t) /\ psize (g_rolled db2 resp2 (snd x_g71t)) = 1 /\
  x_found (snd x_g71t) = [(1, 4, Some (RspRestore RS_PIN_MISMATCH [] 2)); (1, 5, Some (RspRestore RS_PIN_MISMATCH [] 1));
                          (3, 5, Some (RspRestore RS_PIN_MISMATCH [] 2)); (3, 6, Some (RspRestore RS_PIN_MISMATCH [] 1))].
Proof.
  split; [refine (grun_cmds_reached (apply_db2 x_parse) x_reply 0 [] x_cmds71t eq_refl _); eexists; vm_compute; reflexivity|].
  split; [apply gfixed_b_changes; vm_compute; reflexivity|].
  split; [apply gno_clash_b_sound; vm_compute; reflexivity|].
  split; vm_compute; reflexivity.
Qed.

Print Assumptions C70_one_database.
Print Assumptions C70_answers_of_rolled_back_replicas.
Print Assumptions C70_same_effects.
Print Assumptions C70_same_databases.
Print Assumptions C70_no_entry_left_out.
Print Assumptions C71_wrong_guesses_bounded.
Print Assumptions C71_one_store.
Print Assumptions C71_data_only_for_the_pin.
Print Assumptions C71_bound_is_tight.
