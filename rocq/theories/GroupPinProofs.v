(* The SVR2 store in a group: how often a PIN can be guessed. *)
From Verif Require Import RaftNetSpec CoreTxSpec GroupSpec GroupPin GroupPinSpec RaftChain GroupProofs DB2 DB2Spec DB2Proofs RaftSpec.


Lemma positions_filter {A} (f : A -> bool) (l : list A) : forall ps, NoDup ps ->
  (forall p, In p ps -> exists y, nth_error l p = Some y /\ f y = true) -> (length ps <= length (filter f l))%nat.
Proof.
  intros ps Hn H.
  set (g := fun p => match nth_error l p with Some y => f y | None => false end).
  assert (Hlen : forall l0 : list A, length (filter (fun p => match nth_error l0 p with Some y => f y | None => false end) (seq 0 (length l0))) = length (filter f l0)).
  { induction l0 as [|x l0 IH]; [reflexivity|]. cbn [length seq filter nth_error]. rewrite <- seq_shift.
    assert (Hm : forall (h : nat -> bool) (s : list nat), length (filter h (map S s)) = length (filter (fun p => h (S p)) s)).
    { intros h. induction s as [|z s IHs]; [reflexivity|]. cbn [map filter]. destruct (h (S z)); cbn [length]; lia. }
    destruct (f x); cbn [length]; rewrite Hm; cbn [nth_error]; lia. }
  rewrite <- Hlen. apply NoDup_incl_length; [assumption|]. intros p Hp. destruct (H p Hp) as (y & H1 & H2). apply filter_In. split.
  - apply in_seq. split; [lia|]. apply nth_error_Some. congruence.
  - now rewrite H1.
Qed.

Section Pin.
Variable parse : bytes -> option log2.
Notation apply := (apply_db2 parse).
Variable id : bytes.
Definition mismatch (y : entry * option resp2) : bool :=
  match request parse (fst y), snd y with
  | Some l, Some (RspRestore RS_PIN_MISMATCH _ _) => beq (l_id l) id
  | _, _ => false
  end.
Definition renews (e : entry) : bool :=
  match request parse e with
  | Some l => is_backup id (In2 true l)
  | None => false
  end.
Definition left_ (m : db2) : N := match acct_of id m with Acct _ _ t _ => t | NoAcct => 0 end.

Lemma run_one_wf m e : wf_db m -> wf_db (fst (run_one apply m e)).
Proof.
  intros W. unfold run_one. destruct (e_inner e) as [|d| |]; auto. unfold apply_db2. destruct (parse d) as [l|]; auto.
  destruct (apply2 m (In2 true l)) as [[m' r]|] eqn:Ea; auto. eapply apply2_wf; eassumption.
Qed.
Lemma run_one_acct m e : wf_db m -> 
  match request parse e with
  | Some l => if beq (l_id l) id then acct_step (acct_of id m) (In2 true l) = (acct_of id (fst (run_one apply m e)), snd (run_one apply m e))
              else acct_of id (fst (run_one apply m e)) = acct_of id m
  | None => acct_of id (fst (run_one apply m e)) = acct_of id m /\ snd (run_one apply m e) = None
  end.
Proof.
  intros W. unfold request, run_one. destruct (e_inner e) as [|d| |]; auto. unfold apply_db2. destruct (parse d) as [l|]; auto.
  destruct (apply2_refines m (In2 true l) W) as (m' & r & Ea & _). rewrite Ea. cbn [fst snd].
  destruct (acct_of_ext_apply2 m (In2 true l) m' r W Ea) as [H1 H2]. change (key2 (In2 true l)) with (l_id l) in *.
  destruct (beq (l_id l) id) eqn:Eb; [apply beq_eq in Eb; now rewrite <- Eb|]. apply H2. apply beq_neq in Eb. congruence.
Qed.
(* without a new backup, one try is left at least after each wrong guess that is answered as one *)
Lemma mismatch_bound es : forall m, wf_db m -> existsb renews es = false ->
  N.of_nat (length (filter mismatch (combine es (snd (run_all apply m es))))) <= left_ m - 1.
Proof.
  induction es as [|e es IH]; intros m W Hr; cbn [run_all combine]; [cbn; lia|].
  cbn [existsb] in Hr. apply orb_false_iff in Hr as [Hr1 Hr2].
  pose proof (run_one_acct m e W) as Ha. pose proof (run_one_wf m e W) as W1.
  destruct (run_one apply m e) as [m1 eff]. cbn [fst snd] in *.
  specialize (IH m1 W1 Hr2). destruct (run_all apply m1 es) as [m2 r]. cbn [snd combine filter] in *.
  unfold mismatch at 1. cbn [fst snd]. unfold left_ in *.
  unfold renews in Hr1. destruct (request parse e) as [l|]; [|destruct Ha as [<- ->]; exact IH].
  destruct (beq (l_id l) id) eqn:Eb.
  2:{ rewrite Ha in IH. destruct eff as [[]|]; try destruct s; exact IH. }
  unfold acct_step in Ha. cbn [i_log i_vok] in Ha. unfold is_backup, for_id in Hr1. cbn [i_log] in Hr1. rewrite Eb in Hr1.
  assert (H1 : match acct_of id m with Acct _ _ t _ => 1 <= t | NoAcct => True end).
  { unfold acct_of. destruct (lookup id m) as [row|] eqn:El; [|exact I]. cbn. apply (proj2 W id row El). }
  revert Ha IH H1. generalize (acct_of id m) (acct_of id m1). intros a a1 Ha IH H1.
  destruct (legal l); [|injection Ha as <- <-; exact IH]. cbn [andb negb] in *.
  destruct (l_req l) as [dt p t|g|x| | |]; try discriminate.
  - destruct a as [|dt p k [|]].
    + injection Ha as <- <-. exact IH.
    + destruct (beq g p); [injection Ha as <- <-; exact IH|]. destruct (N.eqb_spec k 1) as [->|Hk].
      * injection Ha as <- <-. cbn in IH |- *. lia.
      * injection Ha as <- <-. cbn [length]. lia.
    + injection Ha as <- <-. exact IH.
  - destruct a as [|dt p k ex]; [injection Ha as <- <-; exact IH|]. destruct (is_prefix dt x); injection Ha as <- <-; exact IH.
  - injection Ha as <- <-. lia.
  - destruct a; injection Ha as <- <-; exact IH.
  - injection Ha as <- <-. exact IH.
Qed.

Lemma run_all_length {D E} (ap : D -> bytes -> D * option E) es : forall db, length (snd (run_all ap db es)) = length es.
Proof.
  induction es as [|e es IH]; intros db; [reflexivity|]. cbn [run_all]. destruct (run_one ap db e) as [db1 eff]. specialize (IH db1).
  destruct (run_all ap db1 es). cbn in *. congruence.
Qed.
Lemma run_all_wf es : forall m, wf_db m -> wf_db (fst (run_all apply m es)).
Proof.
  induction es as [|e es IH]; intros m W; [assumption|]. cbn [run_all]. pose proof (run_one_wf m e W) as W1.
  destruct (run_one apply m e) as [m1 eff]. specialize (IH m1 W1). destruct (run_all apply m1 es). exact IH.
Qed.
Lemma combine_nth_error {A B} (a : list A) (b : list B) p x y : nth_error a p = Some x -> nth_error b p = Some y -> nth_error (combine a b) p = Some (x, y).
Proof.
  revert b p. induction a as [|z a IH]; intros b p H1 H2; [destruct p; discriminate|]. destruct b as [|w b]; [destruct p; discriminate|].
  destruct p as [|p]; cbn in *; [congruence|auto].
Qed.
(* places pb < p <= last of one log *)
Lemma log_bound m rest pb eb data pin t last ps : wf_db m -> nth_error rest pb = Some eb ->
  request parse eb = Some (Log2 id (Backup data pin t)) -> legal (Log2 id (Backup data pin t)) = true ->
  (forall p e, nth_error rest p = Some e -> (pb < p)%nat -> (p <= last)%nat -> renews e = false) ->
  NoDup ps -> (forall p, In p ps -> (pb < p)%nat /\ (p <= last)%nat /\ exists e eff, runs_at apply m rest p e eff /\ mismatch (e, eff) = true) ->
  N.of_nat (length ps) < t.
Proof.
  intros W Hb Hq Hl Hr Hn Hp.
  destruct (nth_error_split rest pb Hb) as (a & tl & -> & Hla). set (es := firstn (last - pb) tl).
  set (m0 := fst (run_all apply m a)). set (m1 := fst (run_one apply m0 eb)).
  assert (W0 : wf_db m0) by now apply run_all_wf. assert (W1 : wf_db m1) by now apply run_one_wf.
  assert (Ht : left_ m1 = t).
  { pose proof (run_one_acct m0 eb W0) as Ha. rewrite Hq in Ha. cbn [l_id] in Ha. rewrite beq_refl in Ha.
    unfold acct_step in Ha. cbn [i_log l_req] in Ha. rewrite Hl in Ha. unfold left_, m1. injection Ha as <- _. reflexivity. }
  assert (Ht1 : 1 <= t). { revert Hl. unfold legal. cbn [l_id l_req]. lia. }
  assert (Hre : existsb renews es = false).
  { destruct (existsb renews es) eqn:Ex; [|reflexivity]. exfalso. apply existsb_exists in Ex as (e & He & Hx). apply In_nth_error in He as [j He].
    assert (Hj : (j < length es)%nat) by (apply nth_error_Some; congruence). unfold es in Hj. rewrite firstn_length in Hj.
    rewrite (Hr (pb + 1 + j)%nat e) in Hx; [discriminate| |lia|lia].
    rewrite nth_error_app2 by lia. replace (pb + 1 + j - length a)%nat with (S j) by lia. cbn [nth_error].
    unfold es in He. rewrite <- He. symmetry. rewrite <- (firstn_skipn (last - pb) tl) at 2. rewrite nth_error_app1; [reflexivity|]. rewrite firstn_length. lia. }
  pose proof (mismatch_bound es m1 W1 Hre) as Hb2. rewrite Ht in Hb2.
  assert (Hc : (length (map (fun p => p - pb - 1)%nat ps) <= length (filter mismatch (combine es (snd (run_all apply m1 es)))))%nat).
  { apply positions_filter.
    - clear -Hn Hp. induction ps as [|p ps IH]; [constructor|]. inversion Hn; subst. cbn [map]. constructor.
      + intros Hin. apply in_map_iff in Hin as (p' & Hx & Hin). destruct (Hp p (or_introl eq_refl)) as [Hp1 _]. destruct (Hp p' (or_intror Hin)) as [Hp2 _].
        assert (p' = p) by lia. subst p'. contradiction.
      + apply IH; [assumption|]. intros p' Hp'. apply Hp. now right.
    - intros j Hj. apply in_map_iff in Hj as (p & <- & Hj). destruct (Hp p Hj) as (Hp1 & Hp2 & e & eff & [Hr1 Hr2] & Hm). exists (e, eff). split; [|assumption].
      set (j := (p - pb - 1)%nat).
      rewrite nth_error_app2 in Hr1 by lia. replace (p - length a)%nat with (S j) in Hr1 by lia. cbn [nth_error] in Hr1.
      assert (Hes : nth_error es j = Some e).
      { unfold es. rewrite <- Hr1. rewrite <- (firstn_skipn (last - pb) tl) at 2. rewrite nth_error_app1; [reflexivity|]. rewrite firstn_length.
        assert (j < length tl)%nat by (apply nth_error_Some; congruence). lia. }
      apply combine_nth_error; [assumption|]. rewrite (run_all_nth apply es m1 j e Hes).
      assert (Hfull : nth_error (a ++ eb :: tl) p = Some e). { rewrite nth_error_app2 by lia. replace (p - length a)%nat with (S j) by lia. exact Hr1. }
      rewrite (run_all_nth apply (a ++ eb :: tl) m p e Hfull) in Hr2. rewrite <- Hr2. do 3 f_equal.
      replace (firstn p (a ++ eb :: tl)) with ((a ++ [eb]) ++ firstn j es).
      + rewrite run_all_app. cbn [fst]. rewrite run_all_snoc. reflexivity.
      + replace p with (length a + S j)%nat by lia. rewrite firstn_app_2. cbn [firstn]. rewrite <- app_assoc. cbn [app]. do 2 f_equal.
        unfold es. rewrite firstn_firstn. f_equal. lia. }
  rewrite map_length in Hc. lia.
Qed.
End Pin.

Lemma wrong_guesses sz hmac parse respond min_voting M sm L0 db0 evs (g : group db2 resp2) id data pin t kb ib eb effb last places :
  reachable2 db0 -> group_reached sz hmac (apply_db2 parse) respond min_voting M sm L0 db0 evs g ->
  gchanges_overlap M sm evs -> gno_clash g -> psize (g_rolled db2 resp2 g) <= sm ->
  saw g kb (Took resp2 ib eb effb) -> request parse eb = Some (Log2 id (Backup data pin t)) -> legal (Log2 id (Backup data pin t)) = true ->
  (forall k i e eff, saw g k (Took resp2 i e eff) -> ib < i -> i <= last -> ~ sets_pin parse id e) ->
  NoDup places ->
  (forall i, In i places -> ib < i /\ i <= last /\ exists k e guess d n,
     saw g k (Took resp2 i e (Some (RspRestore RS_PIN_MISMATCH d n))) /\ request parse e = Some (Log2 id (Restore guess))) ->
  N.of_nat (length places) < t.
Proof.
  intros [h0 [rs0 Hdb]] Hg Hf Hun Hro Hb Hq Hl Hno Hnd Hpl.
  assert (W0 : wf_db db0). { destruct (exec_inv apply2 wf_db) with (h := h0) (s := [] : db2) as (m' & rs' & He & Hw).
    - intros s0 o Hs. destruct (apply2_refines s0 o Hs) as (m1 & r1 & Ea & Hw & _). eauto.
    - apply wf_nil.
    - unfold exec2 in Hdb. rewrite He in Hdb. injection Hdb as <- _. assumption. }
  assert (Ht1 : 1 <= t). { revert Hl. unfold legal. cbn [l_id l_req]. lia. }
  destruct places as [|i0 places0] eqn:Ep; [cbn; lia|]. rewrite <- Ep in *.
  destruct (one_database sz hmac (apply_db2 parse) respond min_voting M sm L0 db0 evs g Hg Hf Hun Hro) as (rest & Ht & _).
  destruct (Ht kb ib eb effb Hb) as (pb & Hib & [Hpb _]).
  (* the last place *)
  assert (Hmax : exists il, In il places /\ forall i, In i places -> i <= il).
  { rewrite Ep. clear. revert i0. induction places0 as [|x l IH]; intros i0.
    - exists i0. split; [now left|]. intros i [<-|[]]. lia.
    - destruct (IH x) as (il & H1 & H2). destruct (N.le_ge_cases i0 il).
      + exists il. split; [now right|]. intros i [<-|Hi]; auto.
      + exists i0. split; [now left|]. intros i [<-|Hi]; [lia|]. specialize (H2 i Hi). lia. }
  destruct Hmax as (il & Hil & Hmax). destruct (Hpl il Hil) as (Hil1 & Hil2 & kl & el & gl & dl & nl & Htl & _).
  replace (length places) with (length (map (fun i => N.to_nat (i - llen L0 - 1)) places)) by apply map_length.
  eapply (log_bound parse id db0 rest pb eb data pin t (N.to_nat (il - llen L0 - 1))); try eassumption.
  - intros p e Hn Hp1 Hp2. set (j := llen L0 + 1 + N.of_nat p).
    destruct (took_before sz hmac (apply_db2 parse) respond min_voting M sm L0 db0 evs g kl il el _ j Hg Hf Hun Htl) as (e' & eff' & Hj); [unfold j; lia|unfold j; lia|].
    destruct (Ht kl j e' eff' Hj) as (p' & Hp' & [Hn' _]). assert (p' = p) by (unfold j in Hp'; lia). subst p'. rewrite Hn in Hn'. injection Hn' as <-.
    specialize (Hno kl j e eff' Hj ltac:(unfold j; lia) ltac:(unfold j; lia)). unfold sets_pin in Hno. unfold renews.
    destruct (request parse e) as [l|]; [|reflexivity]. destruct (is_backup id (In2 true l)) eqn:Eb; [|reflexivity]. exfalso. apply Hno.
    unfold is_backup, for_id in Eb. cbn [i_log] in Eb. destruct (beq (l_id l) id) eqn:Ei; [|discriminate]. apply beq_eq in Ei.
    destruct (legal l) eqn:Ell; [|discriminate]. destruct l as [lid lreq]. cbn [l_id l_req andb] in *. subst lid. destruct lreq; try discriminate. eauto 6.
  - clear -Hnd Hpl Hib. assert (Hgt : forall i, In i places -> llen L0 + 1 <= i). { intros i Hi. destruct (Hpl i Hi) as [Hx _]. lia. }
    clear Hpl. induction places as [|i l IH]; [constructor|]. inversion Hnd; subst. cbn [map]. constructor.
    + intros Hin. apply in_map_iff in Hin as (i' & Hx & Hin). pose proof (Hgt i (or_introl eq_refl)). pose proof (Hgt i' (or_intror Hin)).
      assert (i' = i) by lia. subst i'. contradiction.
    + apply IH; [assumption|]. intros i' Hi'. apply Hgt. now right.
  - intros p Hp. apply in_map_iff in Hp as (i & <- & Hi). destruct (Hpl i Hi) as (H1 & H2 & k & e & guess & d & n & H3 & H4).
    specialize (Hmax i Hi). destruct (Ht k i e _ H3) as (p & Hp & H5). replace (N.to_nat (i - llen L0 - 1)) with p by lia.
    split; [lia|]. split; [lia|]. exists e, (Some (RspRestore RS_PIN_MISMATCH d n)). split; [assumption|].
    unfold mismatch. cbn [fst snd]. rewrite H4. cbn [l_id]. apply beq_refl.
Qed.

(* --- one store ---------------------------------------------------------------------- *)
Definition requests (parse : bytes -> option log2) (es : list entry) : list in2 :=
  flat_map (fun e => match request parse e with Some l => [In2 true l] | None => [] end) es.
Lemma requests_app parse a b : requests parse (a ++ b) = requests parse a ++ requests parse b.
Proof. apply flat_map_app. Qed.
Lemma run_all_exec2 parse es : forall m, wf_db m ->
  exists rs, exec2 m (requests parse es) = Ret (fst (run_all (apply_db2 parse) m es), rs).
Proof.
  induction es as [|e es IH]; intros m W; [eexists; reflexivity|].
  change (requests parse (e :: es)) with (match request parse e with Some l => [In2 true l] | None => [] end ++ requests parse es).
  cbn [run_all]. pose proof (run_one_wf parse m e W) as W1. unfold request, run_one in *.
  assert (Hn : exists rs, exec2 m (requests parse es) = Ret (fst (let (db2_, r) := run_all (apply_db2 parse) m es in (db2_, @None resp2 :: r)), rs)).
  { destruct (IH m W) as [rs H]. exists rs. rewrite H. destruct (run_all (apply_db2 parse) m es); reflexivity. }
  destruct (e_inner e) as [|d| |]; try exact Hn. change (apply_db2 parse m d) with
    (match parse d with None => (m, None) | Some l => match apply2 m (In2 true l) with Ret (db', r) => (db', r) | Crash => (m, None) end end) in *.
  destruct (parse d) as [l|]; [|exact Hn].
  destruct (apply2_refines m (In2 true l) W) as (m1 & r1 & Ea & W2 & _). rewrite Ea in *. cbn [app].
  destruct (IH m1 W2) as [rs H]. unfold exec2 in *. cbn [exec]. rewrite Ea, H. exists (r1 :: rs).
  destruct (run_all (apply_db2 parse) m1 es); reflexivity.
Qed.
Lemma one_store sz hmac parse respond min_voting M sm L0 h0 rs0 db0 evs (g : group db2 resp2) :
  exec2 [] h0 = Ret (db0, rs0) -> group_reached sz hmac (apply_db2 parse) respond min_voting M sm L0 db0 evs g ->
  gchanges_overlap M sm evs -> gno_clash g -> psize (g_rolled db2 resp2 g) <= sm ->
  exists h pos,
    (forall k i e eff l, saw g k (Took resp2 i e eff) -> request parse e = Some l ->
       exists h1 h2 m rs, h0 ++ h = h1 ++ In2 true l :: h2 /\ length h1 = pos i /\
         exec2 [] (h1 ++ [In2 true l]) = Ret (m, rs) /\ last_answer rs = eff) /\
    (forall k i e eff l k' i' e' eff' l', saw g k (Took resp2 i e eff) -> request parse e = Some l ->
       saw g k' (Took resp2 i' e' eff') -> request parse e' = Some l' -> i < i' -> (pos i < pos i')%nat).
Proof.
  intros H0 Hg Hf Hc Hr.
  assert (W0 : wf_db db0) by (destruct (exec2_ok h0 [] wf_nil) as (m9 & rs9 & X9 & W9); congruence).
  destruct (one_database sz hmac (apply_db2 parse) respond min_voting M sm L0 db0 evs g Hg Hf Hc Hr) as (rest & Ht & _).
  exists (requests parse rest), (fun i => (length h0 + length (requests parse (firstn (N.to_nat (i - llen L0 - 1)) rest)))%nat).
  assert (Hsplit : forall p e, nth_error rest p = Some e -> rest = firstn p rest ++ e :: skipn (S p) rest).
  { intros p e H. apply nth_error_split in H as (a & b & -> & <-). rewrite firstn_app, Nat.sub_diag, firstn_all. cbn [firstn]. rewrite app_nil_r.
    replace (S (length a)) with (length (a ++ [e])) by (rewrite app_length; cbn; lia).
    replace (a ++ e :: b) with ((a ++ [e]) ++ b) at 1 by now rewrite <- app_assoc.
    replace (a ++ e :: b) with ((a ++ [e]) ++ b) by now rewrite <- app_assoc.
    rewrite skipn_app, skipn_all, Nat.sub_diag. cbn. now rewrite <- app_assoc. }
  split.
  - intros k i e eff l Hs Hq. destruct (Ht _ _ _ _ Hs) as (p & Hi & Hn & He).
    replace (N.to_nat (i - llen L0 - 1)) with p by lia.
    assert (Hre : requests parse [e] = [In2 true l]) by (unfold requests; cbn; now rewrite Hq).
    destruct (run_all_exec2 parse (firstn p rest) db0 W0) as [rs1 E1].
    set (m1 := fst (run_all (apply_db2 parse) db0 (firstn p rest))) in *.
    assert (W1 : wf_db m1) by (apply run_all_wf; exact W0).
    destruct (apply2_refines m1 (In2 true l) W1) as (m2 & r2 & Ea & _).
    exists (h0 ++ requests parse (firstn p rest)), (requests parse (skipn (S p) rest)), m2, (rs0 ++ rs1 ++ [r2]).
    split; [|split; [rewrite app_length; reflexivity|split]].
    + rewrite (Hsplit p e Hn) at 1. change (e :: skipn (S p) rest) with ([e] ++ skipn (S p) rest). rewrite !requests_app, Hre, <- !app_assoc. reflexivity.
    + unfold exec2 in *. rewrite <- app_assoc. rewrite exec_app, H0, exec_app, E1. cbn [exec]. rewrite Ea. reflexivity.
    + rewrite (run_all_nth (apply_db2 parse) rest db0 p e Hn) in He. injection He as <-. fold m1.
      unfold last_answer. rewrite app_assoc, last_last. unfold run_one. unfold request in Hq. destruct (e_inner e) as [|d| |]; try discriminate.
      unfold apply_db2. rewrite Hq, Ea. reflexivity.
  - intros k i e eff l k' i' e' eff' l' Hs Hq Hs' Hq' Hlt.
    destruct (Ht _ _ _ _ Hs) as (p & Hi & Hn & _). destruct (Ht _ _ _ _ Hs') as (p' & Hi' & _ & _).
    replace (N.to_nat (i - llen L0 - 1)) with p by lia. replace (N.to_nat (i' - llen L0 - 1)) with p' by lia.
    assert (Hp : (p < p')%nat) by lia.
    assert (Hpre : firstn p' rest = firstn p rest ++ e :: firstn (p' - S p) (skipn (S p) rest)).
    { rewrite (Hsplit p e Hn) at 1. rewrite firstn_app. assert (length (firstn p rest) = p).
      { apply firstn_length_le. apply Nat.lt_le_incl, nth_error_Some. congruence. }
      rewrite H. rewrite firstn_all2 by lia. f_equal. replace (p' - p)%nat with (S (p' - S p)) by lia. reflexivity. }
    rewrite Hpre. change (e :: ?x) with ([e] ++ x). rewrite !requests_app, !app_length.
    assert (Hre : requests parse [e] = [In2 true l]) by (unfold requests; cbn; now rewrite Hq). rewrite Hre. cbn [length]. lia.
Qed.

Lemma requests_split parse es : forall ha x hb, requests parse es = ha ++ In2 true x :: hb ->
  exists p e, nth_error es p = Some e /\ request parse e = Some x /\ requests parse (firstn p es) = ha /\ requests parse (skipn (S p) es) = hb.
Proof.
  induction es as [|e es IH]; intros ha x hb H; [destruct ha; discriminate|].
  change (requests parse (e :: es)) with (match request parse e with Some l => [In2 true l] | None => [] end ++ requests parse es) in H.
  destruct (request parse e) as [l|] eqn:Eq; cbn [app] in H.
  - destruct ha as [|y ha]; cbn in H.
    + injection H as -> <-. exists 0%nat, e. auto.
    + injection H as <- H. destruct (IH _ _ _ H) as (p & e' & H1 & H2 & H3 & H4). exists (S p), e'. cbn [nth_error firstn skipn]. split; [assumption|].
      split; [assumption|]. split; [|assumption]. unfold requests in *. cbn [flat_map]. rewrite Eq, H3. reflexivity.
  - destruct (IH _ _ _ H) as (p & e' & H1 & H2 & H3 & H4). exists (S p), e'. cbn [nth_error firstn skipn]. split; [assumption|].
    split; [assumption|]. split; [|assumption]. unfold requests in *. cbn [flat_map]. rewrite Eq, H3. reflexivity.
Qed.
Lemma requests_vok parse es i : In i (requests parse es) -> i_vok i = true.
Proof. unfold requests. intros H. apply in_flat_map in H as (e & _ & H). destruct (request parse e); [|contradiction]. destruct H as [<-|[]]. reflexivity. Qed.
Lemma in_requests parse es p e l : nth_error es p = Some e -> request parse e = Some l -> In (In2 true l) (requests parse es).
Proof. intros H1 H2. unfold requests. apply in_flat_map. exists e. split; [eapply nth_error_In; eassumption|]. rewrite H2. now left. Qed.
Lemma data_for_pin sz hmac parse respond min_voting M sm L0 evs (g : group db2 resp2) k i e id guess d n :
  group_reached sz hmac (apply_db2 parse) respond min_voting M sm L0 [] evs g ->
  gchanges_overlap M sm evs -> gno_clash g -> psize (g_rolled db2 resp2 g) <= sm ->
  saw g k (Took resp2 i e (Some (RspRestore RS_OK d n))) -> request parse e = Some (Log2 id (Restore guess)) ->
  exists ib eb effb t, saw g k (Took resp2 ib eb effb) /\ ib < i /\
    request parse eb = Some (Log2 id (Backup d guess t)) /\ legal (Log2 id (Backup d guess t)) = true /\
    forall k' j ej eff, saw g k' (Took resp2 j ej eff) -> ib < j -> j < i -> ~ sets_pin parse id ej.
Proof.
  intros Hg Hf Hc Hr Hs Hq.
  destruct (one_database sz hmac (apply_db2 parse) respond min_voting M sm L0 [] evs g Hg Hf Hc Hr) as (rest & Ht & _).
  destruct (Ht _ _ _ _ Hs) as (p & Hi & Hn & He).
  destruct (run_all_exec2 parse (firstn p rest) [] wf_nil) as [rs1 E1].
  set (m1 := fst (run_all (apply_db2 parse) [] (firstn p rest))) in *.
  assert (W1 : wf_db m1) by (apply run_all_wf; exact wf_nil).
  destruct (apply2_refines m1 (In2 true (Log2 id (Restore guess))) W1) as (m2 & r2 & Ea & _).
  assert (E2 : exec2 [] (requests parse (firstn p rest) ++ [In2 true (Log2 id (Restore guess))]) = Ret (m2, rs1 ++ [r2])).
  { unfold exec2 in *. rewrite exec_app, E1. cbn [exec]. rewrite Ea. reflexivity. }
  rewrite (run_all_nth (apply_db2 parse) rest [] p e Hn) in He. fold m1 in He.
  assert (Hr2 : r2 = Some (RspRestore RS_OK d n)).
  { unfold run_one in He. unfold request in Hq. destruct (e_inner e) as [|b| |]; try discriminate. unfold apply_db2 in He. rewrite Hq, Ea in He. cbn in He. congruence. }
  assert (E3 : last_answer (rs1 ++ [r2]) = Some (RspRestore RS_OK d n)) by (unfold last_answer; rewrite last_last; exact Hr2).
  destruct (restore_ok_history _ _ _ _ _ _ _ _ E2 E3) as (ha & vb & t & hb & x & hc & Hh & Hl & _ & Hno & _).
  assert (vb = true) as ->. { apply (requests_vok parse (firstn p rest) (In2 vb (Log2 id (Backup d guess t)))). rewrite Hh. apply in_or_app; right; now left. }
  destruct (requests_split _ _ _ _ _ Hh) as (pb & eb & Hb1 & Hb2 & _ & Hb4).
  assert (Hpb : (pb < p)%nat). { assert (pb < length (firstn p rest))%nat by (apply nth_error_Some; congruence). rewrite firstn_length in H. lia. }
  assert (Hfn : forall j, (j < p)%nat -> nth_error (firstn p rest) j = nth_error rest j).
  { intros j Hj. rewrite <- (firstn_skipn p rest) at 2. rewrite nth_error_app1; [reflexivity|]. rewrite firstn_length. assert (p < length rest)%nat by (apply nth_error_Some; congruence). lia. }
  destruct (took_before sz hmac (apply_db2 parse) respond min_voting M sm L0 [] evs g k i e (Some (RspRestore RS_OK d n)) (llen L0 + 1 + N.of_nat pb) Hg Hf Hc Hs) as (eb' & effb & Hsb); [lia|lia|].
  destruct (Ht _ _ _ _ Hsb) as (pb' & Hib & Hnb & _). assert (pb' = pb) as -> by lia.
  rewrite Hfn in Hb1 by assumption. rewrite Hb1 in Hnb. injection Hnb as <-.
  exists (llen L0 + 1 + N.of_nat pb), eb, effb, t. split; [assumption|]. split; [lia|]. split; [assumption|]. split; [assumption|].
  intros k' j ej eff Hsj Hj1 Hj2 (data' & pin' & t' & Hq' & Hl').
  destruct (Ht _ _ _ _ Hsj) as (pj & Hij & Hnj & _). rewrite <- Hfn in Hnj by lia.
  assert (Hin : In (In2 true (Log2 id (Backup data' pin' t'))) (hb ++ In2 true (Log2 id (Expose x)) :: hc)).
  { rewrite <- Hb4. apply (in_requests parse _ (pj - S pb) ej); [|assumption]. rewrite <- Hnj.
    rewrite <- (firstn_skipn (S pb) (firstn p rest)) at 2. assert (Hlen : length (firstn (S pb) (firstn p rest)) = S pb).
    { apply firstn_length_le. rewrite firstn_length. assert (p < length rest)%nat by (apply nth_error_Some; congruence). lia. }
    rewrite nth_error_app2 by lia. f_equal. lia. }
  assert (Hbk : is_backup id (In2 true (Log2 id (Backup data' pin' t'))) = true).
  { unfold is_backup, for_id. cbn [i_log l_id l_req]. rewrite Hl'. rewrite (proj2 (beq_eq id id) eq_refl). reflexivity. }
  apply in_app_or in Hin as [Hin|[Hin|Hin]]; [| discriminate |].
  - rewrite (Hno _ (in_or_app _ _ _ (or_introl Hin))) in Hbk. discriminate.
  - rewrite (Hno _ (in_or_app _ _ _ (or_intror Hin))) in Hbk. discriminate.
Qed.
