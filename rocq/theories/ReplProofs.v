(* Proofs about the state transfer, for any database with the laws below. *)
From Verif Require Import ReplSpec.

Lemma make_room_cut sz need t max es old b ok es' o' b' : make_room sz need t max es old b = Ret (ok, (es', o', b')) ->
  exists d, es' = skipn d es /\ o' = old + N.of_nat d /\ (d <= length es)%nat /\ (d = 0%nat \/ o' <= t).
Proof.
  revert old b. induction es as [|e es IH]; intros old b; cbn [make_room].
  - destruct (b + need <=? max); [intros X; injection X as <- <- <- <-; exists 0%nat; cbn; repeat split; auto; lia|].
    destruct (t <=? old); [intros X; injection X as <- <- <- <-; exists 0%nat; cbn; repeat split; auto; lia|discriminate].
  - destruct (b + need <=? max); [intros X; injection X as <- <- <- <-; exists 0%nat; cbn; repeat split; auto; lia|].
    destruct (N.leb_spec t old); [intros X; injection X as <- <- <- <-; exists 0%nat; cbn; repeat split; auto; lia|].
    intros X. destruct (IH _ _ X) as (d & -> & -> & Hd & Ht). exists (S d). cbn [skipn length]. repeat split; [lia|lia|right; lia].
Qed.
Lemma append_cut sz e t l l' : append sz e t l = Ret (l', L_OK) ->
  exists d, l_entries l' = skipn d (l_entries l) ++ [e] /\ l_oldest l' = l_oldest l + N.of_nat d /\ (d <= length (l_entries l))%nat /\ (d = 0%nat \/ l_oldest l' <= t).
Proof.
  unfold append. destruct (e_term e =? 0); [discriminate|]. destruct (negb (blen (e_hash e) =? 32)); [discriminate|].
  destruct (make_room _ _ _ _ _ _ _) as [[ok [[es' o'] b']]|] eqn:E; [|discriminate]. cbn [bind].
  destruct (negb ok); [discriminate|]. destruct (INT_MAX <? byte_size e); [discriminate|]. intros X. injection X as <-. cbn.
  destruct (make_room_cut _ _ _ _ _ _ _ _ _ _ _ E) as (d & -> & -> & H). exists d. auto.
Qed.
Lemma skipn_app_le {A} d (a b : list A) : (d <= length a)%nat -> skipn d (a ++ b) = skipn d a ++ b.
Proof. intros H. rewrite skipn_app. replace (d - length a)%nat with 0%nat by lia. reflexivity. Qed.
Lemma firstn_snoc {A} n (l : list A) x : nth_error l n = Some x -> firstn (S n) l = firstn n l ++ [x].
Proof.
  revert l. induction n as [|n IH]; intros [|y l] X; try discriminate; cbn [nth_error] in X; [injection X as ->; reflexivity|].
  rewrite (firstn_cons (S n)), (IH l X), firstn_cons. reflexivity.
Qed.
Lemma skipn_nth {A} n (l : list A) x : nth_error l n = Some x -> skipn n l = x :: skipn (S n) l.
Proof. revert l. induction n as [|n IH]; intros [|y l]; cbn; try discriminate; [intros X; injection X as ->; reflexivity|]. apply IH. Qed.
Lemma skipn_skipn' {A} a b (l : list A) : skipn a (skipn b l) = skipn (b + a) l.
Proof. revert l. induction b as [|b IH]; intros l; [reflexivity|]. destruct l; [cbn; now rewrite skipn_nil|]. cbn. apply IH. Qed.
Lemma nth_skipn {A} (l : list A) d k : nth_error (skipn d l) k = nth_error l (d + k).
Proof. revert l. induction d as [|d IH]; intros [|x l]; cbn; auto. now destruct k. Qed.
Lemma nth_firstn {A} (l : list A) n k x : nth_error (firstn n l) k = Some x -> nth_error l k = Some x.
Proof. revert n l. induction k as [|k IH]; intros [|n] [|y l]; cbn; try discriminate; auto. apply IH. Qed.
Lemma upto_snoc l x : upto (l ++ [x]) -> upto l /\ x = length l.
Proof.
  unfold upto. rewrite app_length. cbn. rewrite Nat.add_1_r. rewrite seq_S. cbn. intros H. apply app_inj_tail in H as [A B]. auto.
Qed.
Lemma answer_in i l b : answer i l = Some b -> In (i, b) l.
Proof. induction l as [|[j c] l IH]; cbn; [discriminate|]. destruct (Nat.eqb_spec i j) as [->|]; [intros X; injection X as ->; auto|auto]. Qed.
Lemma answer_some i l : In i (map fst l) -> exists b, answer i l = Some b.
Proof. induction l as [|[j c] l IH]; cbn; [contradiction|]. destruct (Nat.eqb_spec i j) as [->|]; [eauto|]. intros [X|X]; [congruence|auto]. Qed.
Lemma in_answer i l b : NoDup (map fst l) -> In (i, b) l -> answer i l = Some b.
Proof.
  induction l as [|[j c] l IH]; cbn; [contradiction|]. intros N [X|X]; inversion N; subst.
  - injection X as -> ->. now rewrite Nat.eqb_refl.
  - destruct (Nat.eqb_spec i j) as [->|]; [|auto]. exfalso. apply H1. apply (in_map fst) in X. exact X.
Qed.

Definition writes (h : list rop) : list entry := flat_map (fun x => match x with SWrite e => [e] | _ => [] end) h.

Section Proofs.
Variable D : dbi.
Variable V : Type.
Variable rows : db_state D -> smap V.
Variable ser : bytes -> V -> bytes.
Variable ok : db_state D -> Prop.
Variable tl : db_log D -> Prop.
Let serl := map (fun kv : bytes * V => ser (fst kv) (snd kv)).
Hypothesis H_new : ok (db_new D) /\ rows (db_new D) = [].
Hypothesis H_rows : forall s, ok s -> sorted (rows s) /\ forall k v, In (k, v) (rows s) -> length k = 16%nat.
Hypothesis H_typed : forall x l, db_parse D x = Some l -> tl l.
Hypothesis H_run : forall s l, ok s -> tl l -> db_valid D l = true -> exists s', db_run D s l = Ret s' /\ ok s' /\
  forall k, k <> db_key D l -> lookup k (rows s') = lookup k (rows s).
Hypothesis H_det : forall s1 s2 l s1' s2', ok s1 -> ok s2 -> tl l -> db_valid D l = true -> lookup (db_key D l) (rows s1) = lookup (db_key D l) (rows s2) ->
  db_run D s1 l = Ret s1' -> db_run D s2 l = Ret s2' -> lookup (db_key D l) (rows s1') = lookup (db_key D l) (rows s2').
Hypothesis H_key : forall l, db_valid D l = true -> length (db_key D l) = 16%nat.
Hypothesis H_empty : forall l, db_parse D [] = Some l -> db_valid D l = false.
Hypothesis H_dump : forall s start n, ok s -> db_dump D s start n = dump_rows ser (rows s) (fun b => above b (rows s)) start n.
Hypothesis H_load : forall d s mid, ok d -> ok s -> sorted (rows d ++ mid) -> (forall kv, In kv mid -> In kv (rows s)) -> mid <> [] ->
  exists d', db_load D d (serl mid) = Ret (d', match last_key mid with Some k => k | None => [] end, E_OK) /\ ok d' /\ rows d' = rows d ++ mid.
Hypothesis H_inj : forall s s', ok s -> ok s' -> rows s = rows s' -> s = s'.

Variable sz : sizes.
Variable tid : N.
Variable chunk : N.
Variable pipeline : nat.
Variable msg_size : push -> N.

(* the source's entries, past and to come, and its states *)
Variable L0 G : list entry.
Variable B : db_state D.
Variable o : N.
Hypothesis HB : ok B.
Hypothesis HL0 : L0 <> [].
Hypothesis Ho : 1 <= o.
Let A := L0 ++ G.
Definition apply_tot (e : entry) (s : db_state D) : db_state D := match apply_entry D e s with Ret s' => s' | Crash => s end.
Definition state (c : nat) : db_state D := fold_left (fun s e => apply_tot e s) (firstn (c - length L0) G) B.

Arguments state : simpl never.

Lemma apply_ok e s : ok s -> exists s', apply_entry D e s = Ret s' /\ ok s'.
Proof.
  intros H. unfold apply_entry. destruct (e_inner e) as [|d| |]; eauto. destruct (db_parse D d) as [l|] eqn:Ep; eauto.
  destruct (db_valid D l) eqn:Ev; eauto. destruct (H_run s l H (H_typed _ _ Ep) Ev) as (s' & -> & Hs & _). eauto.
Qed.
Lemma tot_ok e s : ok s -> apply_entry D e s = Ret (apply_tot e s) /\ ok (apply_tot e s).
Proof. intros H. unfold apply_tot. destruct (apply_ok e s H) as (s' & -> & Hs). auto. Qed.
Lemma state_ok c : ok (state c).
Proof. unfold state. generalize (firstn (c - length L0) G) as l. intros l. revert HB. generalize B as b. induction l as [|e l IH]; cbn; intros b Hb; [assumption|]. apply IH, tot_ok, Hb. Qed.
Lemma state_next c e : (length L0 <= c)%nat -> nth_error A c = Some e -> state (S c) = apply_tot e (state c).
Proof.
  intros Hc He. unfold state. rewrite Nat.sub_succ_l by assumption. subst A. rewrite nth_error_app2 in He by assumption.
  rewrite (firstn_snoc _ _ _ He), fold_left_app. reflexivity.
Qed.

(* the source after [m] entries *)
Definition src_at (s : src D) (m : nat) : Prop :=
  s_db D s = state m /\ (length L0 <= m <= length A)%nat /\
  exists t, (t < m)%nat /\ l_oldest (s_log D s) = o + N.of_nat t /\ l_entries (s_log D s) = skipn t (firstn m A).
Lemma src_last s m : src_at s m -> last_idx (s_log D s) = o + N.of_nat m - 1 /\ l_entries (s_log D s) <> [].
Proof.
  intros (_ & Hm & t & Ht & Eo & Ee). unfold last_idx. assert (Hl : length (l_entries (s_log D s)) = (m - t)%nat) by (rewrite Ee, skipn_length, firstn_length; lia).
  destruct (l_entries (s_log D s)) as [|e es] eqn:E; [cbn in Hl; lia|]. rewrite Eo, Hl. split; [lia|discriminate].
Qed.
Lemma src_from s m c : src_at s m -> l_oldest (s_log D s) <= o + N.of_nat c -> from_idx (s_log D s) (o + N.of_nat c) = skipn c (firstn m A).
Proof.
  intros (_ & Hm & t & Ht & Eo & Ee) Hc. unfold from_idx. destruct (N.ltb_spec (o + N.of_nat c) (l_oldest (s_log D s))); [lia|]. rewrite Ee, skipn_skipn'. f_equal. lia.
Qed.
Lemma src_write s m e s' : src_at s m -> nth_error A m = Some e -> s_write D e s = Ret s' -> src_at s' (S m).
Proof.
  intros (Hd & Hm & t & Ht & Eo & Ee) Hn. unfold s_write. destruct (tot_ok e (s_db D s)) as [-> Hk]; [rewrite Hd; apply state_ok|]. cbn [bind].
  intros X. injection X as <-. assert (m < length A)%nat by (apply nth_error_Some; congruence).
  split; [|split; [lia|]]; cbn [s_db s_log l_oldest l_entries].
  - rewrite (state_next m e), Hd; [reflexivity|lia|exact Hn].
  - exists t. split; [lia|]. split; [assumption|]. rewrite Ee, (firstn_snoc _ _ _ Hn), skipn_app_le; [reflexivity|]. rewrite firstn_length. lia.
Qed.
Lemma src_trunc s m : src_at s m -> src_at (s_truncate D s) m.
Proof.
  intros H. pose proof (src_last s m H) as [Hl _]. pose proof H as (Hd & Hm & t & Ht & Eo & Ee). unfold s_truncate. destruct (N.leb_spec (last_idx (s_log D s)) (l_oldest (s_log D s))); [assumption|].
  split; [assumption|]. split; [assumption|]. exists (S t). cbn [s_log l_oldest l_entries]. split; [lia|]. split; [lia|]. rewrite Ee.
  replace (S t) with (t + 1)%nat by lia. rewrite <- skipn_skipn'. destruct (skipn t (firstn m A)); reflexivity.
Qed.

(* a message that takes the destination from (c, lk) to (c', lk') *)
Definition beyond (lk : bytes) (m : smap V) : smap V := match lk with [] => m | _ => above lk m end.
Definition key_after (lk : bytes) (sel : smap V) : bytes := match last_key sel with Some k => k | None => lk end.
Definition good (c0 c : nat) (lk : bytes) (q : push) (c' : nat) (lk' : bytes) (fin : bool) : Prop :=
  p_tid q = tid /\ p_first q = o + N.of_nat c /\ p_entries q = skipn c (firstn c' A) /\ (c <= c' <= length A)%nat /\ (c0 < c')%nat /\ p_end q = fin /\
  exists sel, p_rows q = serl sel /\ lk' = key_after lk sel /\
    ((sel = [] /\ fin = false) \/
     ((length L0 <= c')%nat /\ exists k, sel = firstn k (beyond lk (rows (state c'))) /\ (fin = true -> sel = beyond lk (rows (state c'))))).
Inductive chain (c0 : nat) : list push -> nat -> bytes -> bool -> Prop :=
| chain_nil : chain c0 [] c0 [] false
| chain_snoc qs c lk q c' lk' fin : chain c0 qs c lk false -> p_seq q = N.of_nat (length qs) mod 2 ^ 64 -> good c0 c lk q c' lk' fin ->
    chain c0 (qs ++ [q]) c' lk' fin.

Lemma chain_inv c0 qs q c' lk' fin : chain c0 (qs ++ [q]) c' lk' fin ->
  exists c lk, chain c0 qs c lk false /\ p_seq q = N.of_nat (length qs) mod 2 ^ 64 /\ good c0 c lk q c' lk' fin.
Proof.
  intros H. inversion H as [E|qs0 c lk q0 c1 lk1 f H1 H2 H3 E]; [destruct qs; discriminate|]. apply app_inj_tail in E as [-> ->]. eauto.
Qed.
Lemma chain_cut c0 a b : forall c lk fin, chain c0 (a ++ b) c lk fin -> exists c1 lk1 f1, chain c0 a c1 lk1 f1 /\ (b <> [] -> f1 = false).
Proof.
  induction b as [|q b IH] using rev_ind; intros c lk fin H; [rewrite app_nil_r in H; exists c, lk, fin; split; [assumption|congruence]|].
  rewrite app_assoc in H. apply chain_inv in H as (c1 & lk1 & H & _). destruct b as [|x b]; [rewrite app_nil_r in H; eauto|].
  destruct (IH _ _ _ H) as (c2 & lk2 & f2 & H2 & H3). exists c2, lk2, f2. split; [assumption|]. intros _. apply H3. discriminate.
Qed.
Lemma chain_end c0 qs c lk fin i q : chain c0 qs c lk fin -> nth_error qs i = Some q -> p_end q = true -> fin = true /\ S i = length qs.
Proof.
  intros H Hn He. assert (Hi : (i < length qs)%nat) by (apply nth_error_Some; congruence).
  destruct qs as [|q0 qs0] eqn:Eq using rev_ind; [cbn in Hi; lia|]. clear IHqs0. apply chain_inv in H as (c1 & lk1 & H & _ & HG). rewrite app_length in *. cbn in *.
  destruct (Nat.eq_dec i (length qs0)) as [->|].
  - rewrite nth_error_app2, Nat.sub_diag in Hn by lia. injection Hn as ->. split; [|lia]. destruct HG as (_ & _ & _ & _ & _ & X & _). congruence.
  - exfalso. rewrite nth_error_app1 in Hn by lia. clear -H Hn He.
    revert c1 lk1 H. induction qs0 as [|x qs IH] using rev_ind; intros; [destruct i; discriminate|].
    apply chain_inv in H as (c2 & lk2 & H & _ & HG). destruct (Nat.lt_ge_cases i (length qs)).
    + rewrite nth_error_app1 in Hn by assumption. eauto.
    + assert (i < length (qs ++ [x]))%nat by (apply nth_error_Some; congruence). rewrite app_length in *. cbn in *.
      rewrite nth_error_app2 in Hn by assumption. replace (i - length qs)%nat with 0%nat in Hn by lia. injection Hn as ->. destruct HG as (_ & _ & _ & _ & _ & X & _). congruence.
Qed.

Lemma chunk_spec size es r b : chunk_entries chunk size es = (r, b) -> exists n, r = firstn n es /\ (n <= length es)%nat /\ (b = true -> r = es) /\ (es <> [] -> n <> 0%nat).
Proof.
  revert size r b. induction es as [|e es IH]; intros size r b; cbn [chunk_entries]; [intros X; injection X as <- <-; exists 0%nat; cbn; repeat split; auto; lia|].
  destruct (chunk <=? size + byte_size e + 1).
  - intros X. injection X as <- <-. exists 1%nat. cbn. repeat split; auto; [lia|discriminate].
  - destruct (chunk_entries chunk (size + byte_size e + 1) es) as [r' b'] eqn:E. intros X. injection X as <- <-. destruct (IH _ _ _ E) as (n & -> & Hn & Hb & _).
    exists (S n). cbn. repeat split; auto; [lia|]. intros Hbt. now rewrite (Hb Hbt).
Qed.
Definition good_key (lk : bytes) : Prop := lk = [] \/ length lk = 16%nat.
Lemma firstn_in {X} n (l : list X) x : In x (firstn n l) -> In x l.
Proof. intros H. rewrite <- (firstn_skipn n l). apply in_or_app. auto. Qed.
Lemma beyond_in lk m x : sorted m -> In x (beyond lk m) -> In x m.
Proof. destruct lk as [|a lk]; [auto|]. intros Hs H. unfold beyond in H. destruct (above_split (a :: lk) m Hs) as (lo & E & _). rewrite E. apply in_or_app. auto. Qed.
Lemma key_after_good lk sel s : good_key lk -> ok s -> (forall x, In x sel -> In x (rows s)) -> good_key (key_after lk sel).
Proof.
  intros H Hs Hi. unfold key_after. destruct (last_key sel) as [k|] eqn:E; [|assumption]. right. apply last_key_in in E as [v E]. apply (proj2 (H_rows s Hs) k v). auto.
Qed.
Lemma good_good c0 c lk q c' lk' fin : good c0 c lk q c' lk' fin -> good_key lk -> good_key lk'.
Proof.
  intros (_ & _ & _ & _ & _ & _ & sel & _ & -> & [[-> _]|(_ & k & -> & _)]) H; [exact H|]. eapply key_after_good; [assumption|apply (state_ok c')|].
  intros x Hx. apply firstn_in in Hx. apply beyond_in in Hx; [assumption|]. apply H_rows, state_ok.
Qed.
Lemma chain_good c0 qs c lk fin : chain c0 qs c lk fin -> good_key lk.
Proof. induction 1; [now left|]. eapply good_good; eauto. Qed.
Lemma last_firstn_some (n : nat) (m : smap V) k : last_key (firstn n m) = Some k -> exists v, In (k, v) m.
Proof. intros H. apply last_key_in in H as [v H]. exists v. eapply firstn_in; eauto. Qed.
Lemma dump_res s lk n : ok s -> good_key lk -> exists k, db_dump D s lk n = (k, E_OK, serl (firstn n (beyond lk (rows s)))) /\
   (n <> 0%nat -> (n <= length (beyond lk (rows s)))%nat -> k = key_after lk (firstn n (beyond lk (rows s)))).
Proof.
  intros Hs Hk. rewrite (H_dump _ _ _ Hs). unfold dump_rows, key_after.
  assert (Hne : forall l : smap V, (n <> 0)%nat -> (n <= length l)%nat -> last_key (firstn n l) <> None).
  { intros l H1 H2 X. apply last_key_none in X. assert (length (firstn n l) = n) by (apply firstn_length_le; assumption). rewrite X in H. cbn in H. lia. }
  destruct lk as [|a lk].
  - eexists. split; [reflexivity|]. intros H1 H2. cbn [beyond] in *. destruct (last_key (firstn n (rows s))); reflexivity.
  - destruct Hk as [|Hk]; [discriminate|]. rewrite Hk. cbn [Nat.eqb negb]. eexists. split; [reflexivity|]. intros H1 H2. cbn [beyond] in *.
    specialize (Hne _ H1 H2). destruct (last_key (firstn n (above (a :: lk) (rows s)))); [reflexivity|congruence].
Qed.

(* the source's side of the transfer *)
Record sender (c0 : nat) (sent : list push) (p : pst) (m c : nat) (lk : bytes) : Prop := {
  n_chain : chain c0 sent c lk (ps_fin p);
  n_bound : (c0 < m /\ c <= m)%nat;
  n_from : ps_from p = o + N.of_nat c;
  n_key : ps_fin p = false -> ps_key p = lk;
  n_seq : ps_seq p = N.of_nat (length sent) mod 2 ^ 64 }.
Lemma seq_next n : (n mod 2 ^ 64 + 1) mod 2 ^ 64 = (n + 1) mod 2 ^ 64.
Proof. rewrite N.add_mod_idemp_l; [reflexivity|]. discriminate. Qed.
Lemma send_step s c0 sent p m c lk p' out : src_at s m -> sender c0 sent p m c lk -> ps_fin p = false ->
  sending D tid chunk msg_size s p = (p', out) -> (forall x, In x out -> fst x <= p_first (snd x)) ->
  exists q c' lk', out = [(l_oldest (s_log D s), q)] /\ sender c0 (sent ++ [q]) p' m c' lk' /\ ps_replied p' = ps_replied p /\
    (ps_fin p' = true -> c' = m /\ p_mem q = s_mem D s).
Proof.
  intros Hs [N1 [N2 N2'] N3 N4 N5] Hf. unfold sending. rewrite Hf. destruct (send_next D tid chunk msg_size s p) as [p1 oq] eqn:E.
  unfold send_next in E. rewrite N3, (N4 Hf) in E.
  destruct (chunk_entries chunk 0 (from_idx (s_log D s) (o + N.of_nat c))) as [es at_end] eqn:Ec.
  cbv zeta in E. set (now := msg_size (Push tid (ps_seq p) (o + N.of_nat c) es [] false (s_mem D s))) in *. set (want := N.to_nat ((chunk - now) / N.of_nat (db_max_row D))) in *.
  assert (Hk : good_key lk) by (eapply chain_good; eauto).
  assert (Hst : s_db D s = state m) by apply Hs. assert (Hm : (length L0 <= m <= length A)%nat) by apply Hs.
  intros X Hout.
  assert (Hold : l_oldest (s_log D s) <= o + N.of_nat c).
  { destruct oq as [q|].
    - injection X as <- <-. specialize (Hout _ (or_introl eq_refl)). cbn in Hout. assert (Hq : p_first q = o + N.of_nat c); [|congruence].
      destruct (at_end && (now <? chunk) && (0 <? want)%nat)%bool; [destruct (db_dump D (s_db D s) lk want) as [[k [] ] rws]; try discriminate|]; injection E as _ <-; reflexivity.
    - exfalso. destruct (at_end && (now <? chunk) && (0 <? want)%nat)%bool; [|discriminate].
      rewrite Hst in E. destruct (dump_res (state m) lk want (state_ok m) Hk) as (k & Ek & _). rewrite Ek in E. discriminate. }
  rewrite (src_from s m c Hs Hold) in Ec. destruct (chunk_spec _ _ _ _ Ec) as (n & En & Hn & Hend & Hnz).
  assert (Hle : length (skipn c (firstn m A)) = (m - c)%nat) by (rewrite skipn_length, firstn_length; lia).
  assert (Hes : length es = n) by (rewrite En; apply firstn_length_le; assumption).
  assert (Ees : es = skipn c (firstn (c + n) A)).
  { rewrite En, (firstn_skipn_comm n c), firstn_firstn. f_equal. f_equal. lia. }
  assert (Hc0 : (c0 < c + n)%nat).
  { destruct (Nat.lt_ge_cases c0 c) as [|Hc]; [lia|]. assert (c0 <= c)%nat by (clear -N1; induction N1 as [|? ? ? ? ? ? ? _ _ _ (_ & _ & _ & _ & ? & _)]; lia).
    assert (n <> 0%nat); [|lia]. apply Hnz. intros Y. rewrite Y in Hle. cbn in Hle. lia. }
  assert (Hat : at_end = true -> (c + n)%nat = m) by (intros Y; specialize (Hend Y); rewrite Hend, Hle in Hes; lia).
  destruct (at_end && (now <? chunk) && (0 <? want)%nat)%bool eqn:Eb.
  - assert (Hae : at_end = true) by (destruct at_end; [reflexivity|discriminate]). specialize (Hat Hae).
    assert (Hw : want <> 0%nat) by (destruct want; [rewrite andb_false_r in Eb; discriminate|lia]).
    rewrite Hst in E. destruct (dump_res (state m) lk want (state_ok m) Hk) as (k & Ek & Hkk). rewrite Ek in E. injection E as <- <-. injection X as <- <-.
    set (sel := firstn want (beyond lk (rows (state m)))) in *.
    set (fin := (length (serl sel) <? want)%nat) in *.
    assert (Hfin : fin = true -> sel = beyond lk (rows (state m))).
    { unfold fin. intros Y. apply Nat.ltb_lt in Y. unfold serl in Y. rewrite map_length in Y. unfold sel in *. apply firstn_all2. rewrite firstn_length in Y. lia. }
    assert (Hnfin : fin = false -> k = key_after lk sel).
    { unfold fin. intros Y. apply Nat.ltb_ge in Y. unfold serl in Y. rewrite map_length in Y. apply Hkk; [assumption|]. unfold sel in Y. rewrite firstn_length in Y. lia. }
    eexists _, (c + n)%nat, (key_after lk sel). split; [reflexivity|]. split; [|split; [reflexivity|]].
    + rewrite Hf. cbn [orb]. constructor; cbn [ps_fin ps_from ps_key ps_seq].
      * eapply chain_snoc; [rewrite Hf in N1; exact N1|exact N5|]. split; [reflexivity|]. split; [reflexivity|]. split; [exact Ees|]. split; [lia|]. split; [assumption|]. split; [reflexivity|].
        exists sel. split; [reflexivity|]. split; [reflexivity|]. right. rewrite Hat. split; [lia|]. exists want. split; [reflexivity|assumption].
      * lia.
      * rewrite Hes. lia.
      * exact Hnfin.
      * rewrite N5, app_length, seq_next. f_equal. cbn. lia.
    + intros _. split; [assumption|reflexivity].
  - injection E as <- <-. injection X as <- <-. eexists _, (c + n)%nat, lk. split; [reflexivity|]. split; [|split; [reflexivity|cbn; congruence]].
    constructor; cbn [ps_fin ps_from ps_key ps_seq].
    + rewrite Hf. eapply chain_snoc; [rewrite Hf in N1; exact N1|exact N5|]. split; [reflexivity|]. split; [reflexivity|]. split; [exact Ees|]. split; [lia|]. split; [assumption|]. split; [reflexivity|].
      exists []. split; [reflexivity|]. split; [reflexivity|]. left. auto.
    + lia.
    + rewrite Hes. lia.
    + reflexivity.
    + rewrite N5, app_length, seq_next. f_equal. cbn. lia.
Qed.
Lemma send_many_ok n : forall s c0 sent p m c lk p' out, src_at s m -> sender c0 sent p m c lk ->
  (ps_fin p = true -> c = m /\ forall qs q, sent = qs ++ [q] -> p_mem q = s_mem D s) ->
  send_many D tid chunk msg_size n s p = (p', out) -> (forall x, In x out -> fst x <= p_first (snd x)) ->
  exists c' lk', sender c0 (sent ++ map snd out) p' m c' lk' /\ ps_replied p' = ps_replied p /\
    (ps_fin p' = true -> c' = m /\ forall qs q, sent ++ map snd out = qs ++ [q] -> p_mem q = s_mem D s).
Proof.
  induction n as [|n IH]; intros s c0 sent p m c lk p' out Hs HN Hfin; cbn [send_many].
  - intros X _. injection X as <- <-. rewrite app_nil_r. exists c, lk. auto.
  - destruct (sending D tid chunk msg_size s p) as [p1 a] eqn:E1. destruct (send_many D tid chunk msg_size n s p1) as [p2 b] eqn:E2. intros X Hout. injection X as <- <-.
    rewrite map_app, app_assoc. destruct (ps_fin p) eqn:Ef.
    + unfold sending in E1. rewrite Ef in E1. injection E1 as <- <-. cbn [map]. rewrite app_nil_r. eapply IH; eauto.
    + destruct (send_step s c0 sent p m c lk p1 a Hs HN Ef E1) as (q & c1 & lk1 & -> & HN1 & Hr & Hf1); [intros x Hx; apply Hout, in_or_app; auto|].
      cbn [map snd]. destruct (IH s c0 (sent ++ [q]) p1 m c1 lk1 p2 b Hs HN1) as (c2 & lk2 & HN2 & Hr2 & Hf2); auto.
      * intros Y. destruct (Hf1 Y) as [-> Z]. split; [reflexivity|]. intros qs q' W. apply app_inj_tail in W as [_ <-]. exact Z.
      * intros x Hx. apply Hout, in_or_app. auto.
      * exists c2, lk2. split; [assumption|]. split; [congruence|assumption].
Qed.

(* the destination after the messages up to (c, lk) *)
Definition dst_log (l : rlog) (c0 c : nat) : Prop :=
  (l_entries l = [] /\ c = c0) \/
  exists t, (t < c)%nat /\ (c <= length A)%nat /\ l_oldest l = o + N.of_nat t /\ l_entries l = skipn t (firstn c A).
Definition dst_rows (s : db_state D) (c : nat) (lk : bytes) : Prop :=
  ok s /\ match lk with
  | [] => rows s = []
  | _ => (length L0 <= c)%nat /\ length lk = 16%nat /\ forall k, lookup k (rows s) = if ble k lk then lookup k (rows (state c)) else None
  end.
Lemma rows_step s c lk e r : dst_rows s c lk -> nth_error A c = Some e -> maybe_apply D lk e s = Ret r -> match r with Some s' => dst_rows s' (S c) lk | None => True end.
Proof.
  intros [Hs Hr] He. unfold maybe_apply. destruct lk as [|a lk].
  { destruct (e_inner e) as [|[|x d]| |]; intros X; injection X as <-; split; auto. }
  destruct Hr as (Hc & Hlk & Hr).
  assert (Hsame : forall s', ok s' -> (forall k, lookup k (rows s') = if ble k (a :: lk) then lookup k (rows (state (S c))) else None) -> dst_rows s' (S c) (a :: lk)).
  { intros s' H1 H2. split; [assumption|]. split; [lia|]. auto. }
  rewrite (state_next c e Hc He) in Hsame.
  assert (Hstay : apply_tot e (state c) = state c -> dst_rows s (S c) (a :: lk)).
  { intros H. apply Hsame; [assumption|]. intros k. now rewrite H. }
  unfold apply_tot, apply_entry in Hsame, Hstay.
  destruct (e_inner e) as [|[|x d]| |]; try (intros X; injection X as <-; auto).
  - apply Hstay. destruct (db_parse D []) as [l|] eqn:El; [|reflexivity]. now rewrite (H_empty l eq_refl).
  - destruct (db_parse D (x :: d)) as [l|] eqn:Ep; [|intros X; injection X as <-; exact I]. pose proof (H_typed _ _ Ep) as Htl.
    destruct (blt (a :: lk) (db_key D l) && negb (beq (db_key D l) []))%bool eqn:Eb.
    + intros X. injection X as <-. destruct (db_valid D l) eqn:Ev; [|auto]. apply Hsame; [assumption|]. intros k. rewrite Hr.
      destruct (H_run (state c) l (state_ok c) Htl Ev) as (s1 & -> & _ & Ho1). destruct (ble k (a :: lk)) eqn:Ek; [|reflexivity]. rewrite Ho1; [reflexivity|].
      intros ->. apply andb_prop in Eb as [Eb _]. rewrite ble_nblt, Eb in Ek. discriminate.
    + destruct (db_valid D l) eqn:Ev; [|intros X; injection X as <-; exact I].
      destruct (H_run s l Hs Htl Ev) as (s' & Es' & Hs' & Ho'). destruct (H_run (state c) l (state_ok c) Htl Ev) as (s1 & Es1 & Hs1 & Ho1). rewrite Es', Es1 in *. cbn [bind].
      intros X. injection X as <-. apply Hsame; [assumption|]. intros k. destruct (beq_spec k (db_key D l)) as [->|Hk].
      * assert (Hle : ble (db_key D l) (a :: lk) = true).
        { rewrite ble_nblt. destruct (beq_spec (db_key D l) []) as [Y|_]; [pose proof (H_key l Ev) as Z; rewrite Y in Z; discriminate|]. rewrite andb_true_r in Eb. now rewrite Eb. }
        rewrite Hle. eapply H_det; [exact Hs|apply (state_ok c)|exact Htl|exact Ev| |exact Es'|exact Es1]. rewrite Hr, Hle. reflexivity.
      * rewrite Ho', Ho1, Hr by assumption. reflexivity.
Qed.

Definition log_mid (l : rlog) (c : nat) : Prop := (c <= length A)%nat /\ exists t, (t <= c)%nat /\ l_oldest l = o + N.of_nat t /\ l_entries l = skipn t (firstn c A).
Lemma take_ok lk n : forall c l s l' s', (c + n <= length A)%nat -> log_mid l c -> dst_rows s c lk ->
  take_entries D sz lk (skipn c (firstn (c + n) A)) l s = Ret (l', s', true) ->
  log_mid l' (c + n) /\ dst_rows s' (c + n) lk /\ (n <> 0%nat \/ l_entries l <> [] -> l_entries l' <> []).
Proof.
  induction n as [|n IH]; intros c l s l' s' Hn Hl Hr.
  - rewrite Nat.add_0_r. rewrite skipn_all2 by (rewrite firstn_length; lia). cbn. intros X. injection X as <- <-. split; [assumption|]. split; [assumption|]. intros [|]; [lia|assumption].
  - destruct (nth_error A c) as [e|] eqn:He; [|apply nth_error_None in He; lia].
    assert (E : nth_error (firstn (c + S n) A) c = Some e).
    { rewrite <- He. rewrite <- (firstn_skipn (c + S n) A) at 2. rewrite nth_error_app1; [reflexivity|]. rewrite firstn_length. lia. }
    rewrite (skipn_nth _ _ _ E). cbn [take_entries]. replace (c + S n)%nat with (S c + n)%nat in * by lia.
    destruct (append sz e (last_idx l) l) as [[l1 []]|] eqn:Ea; cbn [bind]; try discriminate.
    destruct (maybe_apply D lk e s) as [[s1|]|] eqn:Em; cbn [bind]; try discriminate.
    pose proof (rows_step s c lk e _ Hr He Em) as Hr1. cbn in Hr1.
    destruct (append_cut _ _ _ _ _ Ea) as (d & Ee & Eo & Hd & _). intros X.
    assert (Hl1 : log_mid l1 (S c)).
    { destruct Hl as (_ & t & Ht & Eo1 & Ee1). split; [lia|]. exists (t + d)%nat. rewrite Ee1, skipn_length, firstn_length in Hd. split; [lia|]. split; [lia|].
      rewrite Ee, Ee1, skipn_skipn', (firstn_snoc _ _ _ He), skipn_app_le; [reflexivity|]. rewrite firstn_length. lia. }
    destruct (IH (S c) l1 s1 l' s' ltac:(lia) Hl1 Hr1 X) as (H1 & H2 & H3). split; [assumption|]. split; [assumption|]. intros _. apply H3. right. rewrite Ee.
    destruct (skipn d (l_entries l)); discriminate.
Qed.

Record dst_at (d : dst D) (c0 c : nat) (lk : bytes) (n : nat) : Prop := {
  t_load : d_loading D d = true;
  t_log : dst_log (d_log D d) c0 c;
  t_rows : dst_rows (d_db D d) c lk;
  t_big : d_big D d = lk;
  t_seq : d_seq D d = N.of_nat n mod 2 ^ 64 }.

Lemma sorted_firstn (n : nat) (m : smap V) : sorted m -> sorted (firstn n m).
Proof. intros H. rewrite <- (firstn_skipn n m) in H. now apply sorted_app in H. Qed.
Lemma beyond_sorted lk m : sorted m -> sorted (beyond lk m).
Proof. intros H. destruct lk as [|a lk]; [assumption|]. unfold beyond. destruct (above_split (a :: lk) m H) as (lo & E & _). rewrite E in H. now apply sorted_app in H. Qed.
Lemma lookup_app_l (m1 m2 : smap V) k v : lookup k m1 = Some v -> lookup k (m1 ++ m2) = Some v.
Proof. induction m1 as [|[k' v'] m1 IH]; cbn; [discriminate|]. destruct (beq k k'); auto. Qed.
Lemma lookup_app_r (m1 m2 : smap V) k : lookup k m1 = None -> lookup k (m1 ++ m2) = lookup k m2.
Proof. induction m1 as [|[k' v'] m1 IH]; cbn; [reflexivity|]. destruct (beq k k'); [discriminate|auto]. Qed.
Lemma lookup_beyond lk m k : sorted m -> lookup k (beyond lk m) = if (match lk with [] => true | _ => blt lk k end) then lookup k m else None.
Proof.
  intros H. destruct lk as [|a lk]; [reflexivity|]. unfold beyond. destruct (above_split (a :: lk) m H) as (lo & E & Hlo & Hhi).
  destruct (blt (a :: lk) k) eqn:Ek.
  - rewrite E at 2. symmetry. apply lookup_app_r. destruct (lookup k lo) as [v|] eqn:El; [|reflexivity]. apply lookup_in in El. apply Hlo in El. congruence.
  - destruct (lookup k (above (a :: lk) m)) as [v|] eqn:El; [|reflexivity]. apply lookup_in in El. rewrite all_above_iff in Hhi. apply Hhi in El. congruence.
Qed.
(* the part of a sorted map up to the last key of a prefix *)
Lemma lookup_prefix (n : nat) (m : smap V) k0 k : sorted m -> last_key (firstn n m) = Some k0 -> lookup k (firstn n m) = if ble k k0 then lookup k m else None.
Proof.
  intros Hs Hl. pose proof Hs as Hs'. rewrite <- (firstn_skipn n m) in Hs'. apply sorted_app in Hs' as (S1 & S2 & S3).
  destruct (lookup k (firstn n m)) as [v|] eqn:E.
  - pose proof (lookup_in _ _ _ E) as Hin. assert (ble k k0 = true) as -> by (apply ble_total_lt; exact (last_key_max _ _ S1 Hl _ _ Hin)).
    rewrite <- (firstn_skipn n m). now rewrite (lookup_app_l _ _ _ _ E).
  - destruct (ble k k0) eqn:Ek; [|reflexivity]. rewrite <- (firstn_skipn n m), lookup_app_r by assumption.
    destruct (lookup k (skipn n m)) as [v|] eqn:E2; [|reflexivity]. exfalso. apply lookup_in in E2. apply last_key_in in Hl as [v0 Hl].
    specialize (S3 _ _ Hl). rewrite all_above_iff in S3. apply S3 in E2. rewrite ble_nblt, E2 in Ek. discriminate.
Qed.

Lemma blt_nil x : x <> [] -> blt [] x = true.
Proof. destruct x; [congruence|reflexivity]. Qed.
Lemma rows_join d c lk n : dst_rows d c lk -> (length L0 <= c)%nat ->
  let sel := firstn n (beyond lk (rows (state c))) in
  sorted (rows d ++ sel) /\ (forall kv, In kv sel -> In kv (rows (state c))) /\
  forall k0, last_key sel = Some k0 -> length k0 = 16%nat /\
    forall k, lookup k (rows d ++ sel) = if ble k k0 then lookup k (rows (state c)) else None.
Proof.
  intros [Hd Hr] Hc sel. destruct (H_rows _ (state_ok c)) as [Ss Sk]. destruct (H_rows _ Hd) as [Sd Dk].
  assert (Hin : forall kv, In kv sel -> In kv (rows (state c))) by (intros kv Hkv; apply firstn_in in Hkv; eapply beyond_in; eauto).
  assert (Ssel : sorted sel) by (apply sorted_firstn, beyond_sorted, Ss).
  assert (Hlow : forall k v, In (k, v) (rows d) -> all_above k sel /\ lookup k (rows (state c)) = Some v).
  { intros k v Hkv. destruct lk as [|a lk]; [rewrite Hr in Hkv; contradiction|]. destruct Hr as (_ & _ & Hr).
    apply (in_lookup _ _ _ Sd) in Hkv. rewrite Hr in Hkv. destruct (ble k (a :: lk)) eqn:Ek; [|discriminate]. split; [|assumption].
    apply all_above_iff. intros k' v' H'. apply firstn_in in H'. unfold beyond in H'. destruct (above_split (a :: lk) (rows (state c)) Ss) as (_ & _ & _ & Hhi).
    rewrite all_above_iff in Hhi. apply Hhi in H'. apply ble_total_lt in Ek as [->|Ek]; [assumption|]. eapply blt_trans; eauto. }
  assert (Sall : sorted (rows d ++ sel)) by (apply sorted_app; split; [assumption|]; split; [assumption|]; intros k v Hkv; apply (Hlow k v Hkv)).
  split; [assumption|]. split; [assumption|]. intros k0 Hk0. pose proof (last_key_in _ _ Hk0) as [v0 Hv0].
  split; [apply (Sk k0 v0); auto|]. intros k. destruct (lookup k (rows d)) as [v|] eqn:E.
  - rewrite (lookup_app_l _ _ _ _ E). apply lookup_in in E. destruct (Hlow _ _ E) as [H1 H2]. rewrite all_above_iff in H1. specialize (H1 _ _ Hv0).
    assert (ble k k0 = true) as -> by (apply ble_total_lt; auto). now rewrite H2.
  - rewrite lookup_app_r by assumption. unfold sel. rewrite (lookup_prefix _ _ k0) by (auto; apply beyond_sorted, Ss). rewrite lookup_beyond by assumption.
    destruct (ble k k0); [|reflexivity]. destruct lk as [|a lk]; [reflexivity|]. destruct Hr as (_ & _ & Hr). rewrite Hr in E. rewrite ble_nblt in E.
    destruct (blt (a :: lk) k); [reflexivity|]. cbn in E. now rewrite E.
Qed.

Lemma handle_ok d c0 c lk n q c' lk' fin d' : dst_at d c0 c lk n -> p_seq q = N.of_nat n mod 2 ^ 64 -> good c0 c lk q c' lk' fin ->
  handle D sz tid q d = Ret (d', true) -> dst_at d' c0 c' lk' (S n) /\ d_mem D d' = p_mem q /\ (fin = true -> d_db D d' = state c').
Proof.
  intros [T1 T2 T3 T4 T5] Hseq (G1 & G2 & G3 & G4 & G5 & G6 & sel & G7 & G8 & G9). unfold handle. rewrite T1, G1, Hseq, T5, N.eqb_refl, N.eqb_refl. cbn [negb].
  destruct (_ && _)%bool; [discriminate|].
  set (l0 := match l_entries (d_log D d) with [] => _ | _ => _ end).
  assert (Hl0 : log_mid l0 c /\ (c' <> c \/ l_entries l0 <> [])).
  { destruct T2 as [[Ee ->]|(t & Ht & Hc & Eo & Ee)]; unfold l0.
    - rewrite Ee. unfold set_next_idx. rewrite Ee. cbn. split; [|left; lia]. split; [lia|]. exists c0. cbn. rewrite G2. split; [lia|]. split; [lia|].
      symmetry. apply skipn_all2. rewrite firstn_length. lia.
    - assert (Hne : l_entries (d_log D d) <> []) by (rewrite Ee; intros X; apply (f_equal (@length _)) in X; rewrite skipn_length, firstn_length in X; cbn in X; lia).
      destruct (l_entries (d_log D d)) eqn:E; [congruence|]. rewrite <- E in *. split; [|right; congruence]. split; [assumption|]. exists t. split; [lia|]. auto. }
  destruct Hl0 as [Hl0 Hne]. rewrite G3, T4. replace c' with (c + (c' - c))%nat at 1 by lia.
  destruct (take_entries D sz lk _ l0 (d_db D d)) as [[[l s] b]|] eqn:Et; [|discriminate]. cbn [bind]. destruct b; [|discriminate]. cbn [negb].
  destruct (take_ok lk (c' - c) c l0 (d_db D d) l s ltac:(lia) Hl0 T3 Et) as (M1 & M2 & M3). replace (c + (c' - c))%nat with c' in * by lia.
  assert (Hlog : dst_log l c0 c').
  { right. destruct M1 as (M1 & t & Mt & Mo & Me). exists t. split; [|auto]. assert (l_entries l <> []) by (apply M3; destruct Hne; [left; lia|auto]).
    destruct (Nat.eq_dec t c') as [->|]; [|lia]. exfalso. apply H. rewrite Me. apply skipn_all2. rewrite firstn_length. lia. }
  assert (Hsq : (N.of_nat n mod 2 ^ 64 + 1) mod 2 ^ 64 = N.of_nat (S n) mod 2 ^ 64) by (rewrite seq_next; f_equal; lia).
  rewrite G7. destruct sel as [|kv sel0] eqn:Esel.
  - cbn [serl map]. intros X. injection X as <-. cbn. subst lk'. cbn [key_after last_key]. unfold key_after. cbn. split; [constructor; auto|]. split; [reflexivity|]. intros Hfin.
    destruct G9 as [[_ X]|(HL & k & _ & Hall)]; [congruence|]. specialize (Hall Hfin). apply H_inj; [apply M2|apply state_ok|].
    apply smap_ext; [apply H_rows, M2|apply H_rows, state_ok|]. intros k'. destruct M2 as [Hs M2].
    assert (Hb : lookup k' (beyond lk (rows (state c'))) = None) by (rewrite <- Hall; reflexivity). rewrite lookup_beyond in Hb by (apply H_rows, state_ok).
    destruct lk as [|a lk]; [rewrite M2, Hb; reflexivity|]. destruct M2 as (_ & _ & ->). rewrite ble_nblt. destruct (blt (a :: lk) k'); [now rewrite Hb|reflexivity].
  - rewrite <- Esel in *. assert (Hsel : sel <> []) by (rewrite Esel; discriminate).
    destruct G9 as [[X _]|(HL & k & Ek & Hall)]; [congruence|]. destruct (rows_join s c' lk k M2 HL) as (J1 & J2 & J3). rewrite <- Ek in J1, J2, J3.
    destruct (H_load s (state c') sel) as (s' & El & Hs' & Er); [apply M2|apply state_ok|assumption|assumption|assumption|].
    destruct (serl sel) as [|r0 rs0] eqn:Es; [rewrite Esel in Es; discriminate|]. rewrite El. cbn [bind]. unfold key_after in G8.
    destruct (last_key sel) as [k0|] eqn:Elk; [|apply last_key_none in Elk; congruence]. subst lk'.
    destruct (ble k0 lk); [discriminate|]. intros X. injection X as <-. cbn. destruct (J3 k0 eq_refl) as [J4 J5]. rewrite <- Er in J5.
    assert (Hrows : dst_rows s' c' k0) by (split; [assumption|]; destruct k0; [discriminate|]; auto).
    split; [constructor; auto|]. split; [reflexivity|]. intros Hfin. specialize (Hall Hfin).
    apply H_inj; [assumption|apply state_ok|]. apply smap_ext; [apply H_rows; assumption|apply H_rows, state_ok|]. intros k'. rewrite J5.
    destruct (ble k' k0) eqn:Ekk; [reflexivity|]. destruct (lookup k' (rows (state c'))) as [v|] eqn:Ev; [|reflexivity]. exfalso.
    rewrite ble_nblt in Ekk. apply negb_false_iff in Ekk.
    assert (Hb : lookup k' (beyond lk (rows (state c'))) = Some v).
    { rewrite lookup_beyond by (apply H_rows, state_ok). destruct lk as [|a lk]; [assumption|]. destruct (blt (a :: lk) k') eqn:Ebb; [assumption|]. exfalso.
      assert (Hk0 : blt (a :: lk) k0 = true).
      { apply last_key_in in Elk as [v0 Elk]. rewrite Ek in Elk. apply firstn_in in Elk. unfold beyond in Elk. destruct (above_split (a :: lk) (rows (state c'))) as (_ & _ & _ & Hhi); [apply H_rows, state_ok|].
        rewrite all_above_iff in Hhi. eapply Hhi; eauto. }
      rewrite (blt_trans _ _ _ Hk0 Ekk) in Ebb. discriminate. }
    rewrite <- Hall in Hb. apply lookup_in in Hb. destruct (last_key_max sel k0) with (k' := k') (v' := v) as [->|Y]; auto.
    + rewrite Ek. apply sorted_firstn, beyond_sorted, H_rows, state_ok.
    + rewrite blt_irrefl in Ekk. discriminate.
    + rewrite (blt_asym _ _ Y) in Ekk. discriminate.
Qed.

(* the whole transfer *)
Variable s0 : src D.
Variable mx : N.
Variable mem0 : rgroup.
Hypothesis S_log : l_entries (s_log D s0) = L0.
Hypothesis S_old : l_oldest (s_log D s0) = o.
Hypothesis S_db : s_db D s0 = B.
Definition run h := exec (rstep D sz tid chunk pipeline msg_size) (transfer_start D s0 mx mem0) h.
Definition moment (h : list rop) (P : world D -> Prop) : Prop := exists h1 h2 w1 rs1, h = h1 ++ h2 /\ run h1 = Ret (w1, rs1) /\ P w1.
Lemma moment_more h x P : moment h P -> moment (h ++ x) P.
Proof. intros (h1 & h2 & w1 & rs1 & -> & H). exists h1, (h2 ++ x), w1, rs1. rewrite app_assoc. auto. Qed.
Lemma moment_now h w rs (P : world D -> Prop) : run h = Ret (w, rs) -> P w -> moment h P.
Proof. intros H1 H2. exists h, [], w, rs. rewrite app_nil_r. auto. Qed.

Record active (h : list rop) (w : world D) (rs : list rres) (p : pst) (c0 c : nat) (lk : bytes) : Prop := {
  a_send : sender c0 (w_sent D w) p (length L0 + length (writes h)) c lk;
  a_len : (length (w_handled D w) <= length (w_sent D w))%nat;
  a_dst : w_done D w = false -> Forall (fun x => snd x = true) (w_handled D w) ->
    forall c lk f, chain c0 (firstn (length (w_handled D w)) (w_sent D w)) c lk f ->
      dst_at (w_dst D w) c0 c lk (length (w_handled D w)) /\ (f = true -> d_db D (w_dst D w) = state c) /\
      forall qs q, firstn (length (w_handled D w)) (w_sent D w) = qs ++ [q] -> d_mem D (w_dst D w) = p_mem q;
  a_open : ps_replied p = None -> forall i, In i (answered_order rs) -> answer i (w_handled D w) = Some true;
  a_good : ps_replied p = Some true -> ps_fin p = true /\ forall i, (i < length (w_sent D w))%nat -> answer i (w_handled D w) = Some true;
  a_fin : ps_fin p = true -> moment h (fun w1 => src_at (w_src D w1) c /\ forall qs q, w_sent D w = qs ++ [q] -> p_mem q = s_mem D (w_src D w1)) }.
Record Inv (h : list rop) (w : world D) (rs : list rres) : Prop := {
  i_src : src_at (w_src D w) (length L0 + length (writes h));
  i_hnd : map fst (w_handled D w) = rev (handled_order rs);
  i_push : match w_push D w with
    | None => w_sent D w = [] /\ w_handled D w = [] /\ w_dst D w = joining D mx mem0 /\ w_done D w = false /\ answered_order rs = []
    | Some p => exists c0 c lk, active h w rs p c0 c lk
    end;
  i_load : d_loading D (w_dst D w) = negb (w_done D w);
  i_done : w_done D w = true -> moment h (fun w1 => same_at D (w_dst D w) (w_src D w1)) }.

Lemma writes_snoc h x : writes (h ++ [x]) = writes h ++ match x with SWrite e => [e] | _ => [] end.
Proof. unfold writes. rewrite flat_map_app. cbn [flat_map]. now rewrite app_nil_r. Qed.
Lemma handled_snoc rs r : handled_order (rs ++ [r]) = handled_order rs ++ match r_handled r with Some (i, _) => [i] | None => [] end.
Proof. unfold handled_order. rewrite flat_map_app. cbn [flat_map]. now rewrite app_nil_r. Qed.
Lemma answered_snoc rs r : answered_order (rs ++ [r]) = answered_order rs ++ match r_answered r with Some i => [i] | None => [] end.
Proof. unfold answered_order. rewrite flat_map_app. cbn [flat_map]. now rewrite app_nil_r. Qed.
Lemma sender_more c0 sent p m m' c lk : sender c0 sent p m c lk -> (m <= m')%nat -> sender c0 sent p m' c lk.
Proof. intros [N1 N2 N3 N4 N5] H. constructor; auto. lia. Qed.
Lemma rev_seq_nodup n : NoDup (rev (seq 0 n)).
Proof. apply NoDup_rev, seq_NoDup. Qed.

(* an op that leaves the transfer alone *)
Lemma inv_idle h w rs x s' r : Inv h w rs -> src_at s' (length L0 + length (writes (h ++ [x]))) -> r_handled r = None -> r_answered r = None ->
  Inv (h ++ [x]) (World D s' (w_push D w) (w_sent D w) (w_handled D w) (w_closed D w) (w_dst D w) (w_done D w)) (rs ++ [r]).
Proof.
  intros [I1 I2 I3 I4 I5] Hs Rh Ra. constructor; cbn [w_src w_push w_sent w_handled w_dst w_done]; auto.
  - rewrite handled_snoc, Rh, app_nil_r. assumption.
  - destruct (w_push D w) as [p|].
    + destruct I3 as (c0 & c & lk & [A1 A2 A3 A4 A5 A6]). exists c0, c, lk. constructor; cbn [w_src w_push w_sent w_handled w_dst w_done]; auto.
      * eapply sender_more; [eassumption|]. rewrite writes_snoc, app_length. lia.
      * rewrite answered_snoc, Ra, app_nil_r. assumption.
      * intros Hf. apply moment_more, A6, Hf.
    + rewrite answered_snoc, Ra, app_nil_r. assumption.
  - intros Hd. apply moment_more, I5, Hd.
Qed.
Lemma world_eta (w : world D) : World D (w_src D w) (w_push D w) (w_sent D w) (w_handled D w) (w_closed D w) (w_dst D w) (w_done D w) = w.
Proof. now destruct w. Qed.
Lemma inv_same h w rs x : Inv h w rs -> (forall e, x <> SWrite e) -> Inv (h ++ [x]) w (rs ++ [silent]).
Proof.
  intros HI Hx. rewrite <- (world_eta w). apply inv_idle; auto. rewrite writes_snoc. destruct x; try (rewrite app_nil_r; apply HI). destruct (Hx e eq_refl).
Qed.

Lemma firstn_app_le {X} n (a b : list X) : (n <= length a)%nat -> firstn n (a ++ b) = firstn n a.
Proof. intros H. rewrite firstn_app. replace (n - length a)%nat with 0%nat by lia. apply app_nil_r. Qed.

(* the source sends more *)
Lemma active_more h w rs p c0 c lk x p' out cl r : active h w rs p c0 c lk -> src_at (w_src D w) (length L0 + length (writes h)) ->
  (forall e, x <> SWrite e) -> ps_fin p = false -> ps_replied p = None ->
  sending D tid chunk msg_size (w_src D w) p = (p', out) -> (forall y, In y out -> fst y <= p_first (snd y)) ->
  let w' := World D (w_src D w) (Some p') (w_sent D w ++ map snd out) (w_handled D w) cl (w_dst D w) (w_done D w) in
  (forall i, In i (answered_order (rs ++ [r])) -> answer i (w_handled D w) = Some true) ->
  run (h ++ [x]) = Ret (w', rs ++ [r]) ->
  exists c' lk', active (h ++ [x]) w' (rs ++ [r]) p' c0 c' lk'.
Proof.
  intros [A1 A2 A3 A4 A5 A6] Hs Hx Hf Hr E Hk w' Ha Hrun.
  assert (Hw : length (writes (h ++ [x])) = length (writes h)) by (rewrite writes_snoc; destruct x; rewrite ?app_nil_r; try reflexivity; destruct (Hx e eq_refl)).
  destruct (send_step _ _ _ _ _ _ _ _ _ Hs A1 Hf E Hk) as (q & c' & lk' & -> & HN & Hr' & Hfin). exists c', lk'. subst w'. cbn [map snd] in *.
  constructor; cbn [w_src w_push w_sent w_handled w_dst w_done].
  - rewrite Hw. assumption.
  - rewrite app_length. lia.
  - rewrite firstn_app_le by assumption. assumption.
  - intros _. assumption.
  - rewrite Hr', Hr. discriminate.
  - intros Hf'. destruct (Hfin Hf') as [-> Hm]. eapply moment_now; [exact Hrun|]. cbn. split; [assumption|]. intros qs q' Y. apply app_inj_tail in Y as [_ <-]. assumption.
Qed.

Lemma inv_called h w rs i b a x w' r : Inv h w rs -> called D tid chunk msg_size i b a w = (w', r) -> (forall e, x <> SWrite e) ->
  upto (answered_order (rs ++ [r])) -> (forall y, In y (r_sent r) -> fst y <= p_first (snd y)) ->
  (b = true -> answer i (w_handled D w) = Some true /\ a = Some i) ->
  run (h ++ [x]) = Ret (w', rs ++ [r]) -> Inv (h ++ [x]) w' (rs ++ [r]).
Proof.
  intros HI E Hx Hu Hk Hb Hrun. unfold called in E. destruct (w_push D w) as [p|] eqn:Ep; [|injection E as <- <-; apply inv_same; assumption].
  destruct (nth_error (w_sent D w) i) as [q|] eqn:Eq; [|injection E as <- <-; apply inv_same; assumption].
  destruct (has i (w_closed D w)); [injection E as <- <-; apply inv_same; assumption|].
  destruct (callback D tid chunk msg_size (w_src D w) p q b) as [p' out] eqn:Ec. injection E as <- <-. cbn [r_sent] in Hk.
  destruct HI as [I1 I2 I3 I4 I5]. rewrite Ep in I3. destruct I3 as (c0 & c & lk & HA).
  assert (Hw : length (writes (h ++ [x])) = length (writes h)) by (rewrite writes_snoc; destruct x; rewrite ?app_nil_r; try reflexivity; destruct (Hx e eq_refl)).
  constructor; cbn [w_src w_push w_sent w_handled w_dst w_done].
  - rewrite Hw. assumption.
  - rewrite handled_snoc. cbn. rewrite app_nil_r. assumption.
  - unfold callback in Ec. destruct (ps_replied p) as [rep|] eqn:Er.
    + injection Ec as <- <-. exists c0, c, lk. destruct HA as [A1 A2 A3 A4 A5 A6]. constructor; cbn [map w_src w_push w_sent w_handled w_dst w_done]; rewrite ?app_nil_r; auto.
      * rewrite Hw. assumption.
      * rewrite Er. discriminate.
      * intros Hf. apply moment_more, A6, Hf.
    + destruct b; cbn [negb] in Ec.
      * destruct (Hb eq_refl) as [Hai ->]. rewrite answered_snoc in Hu. cbn [r_answered] in Hu. apply upto_snoc in Hu as [Hu Hi].
        assert (Hall : forall j, In j (answered_order (rs ++ [RRes out None (Some i)])) -> answer j (w_handled D w) = Some true).
        { intros j. rewrite answered_snoc. cbn. intros Hj. apply in_app_or in Hj as [Hj|[<-|[]]]; [|assumption]. eapply a_open; eauto. }
        destruct (p_end q) eqn:Ee.
        -- injection Ec as <- <-. exists c0, c, lk. destruct HA as [A1 A2 A3 A4 A5 A6]. destruct (chain_end _ _ _ _ _ _ _ (n_chain _ _ _ _ _ _ A1) Eq Ee) as [Hfin Hlen].
           constructor; cbn [map w_src w_push w_sent w_handled w_dst w_done set_reply ps_replied ps_fin]; rewrite ?app_nil_r; auto.
           ++ rewrite Hw. destruct A1 as [N1 N2 N3 N4 N5]. constructor; auto.
           ++ intros _. split; [assumption|]. intros j Hj. apply Hall. rewrite answered_snoc. cbn. apply in_or_app. destruct (Nat.eq_dec j i) as [->|]; [right; now left|left].
              rewrite Hu. apply in_seq. lia.
           ++ intros Hf. apply moment_more, A6, Hf.
        -- destruct (ps_fin p) eqn:Ef.
           ++ unfold sending in Ec. rewrite Ef in Ec. injection Ec as <- <-. exists c0, c, lk. destruct HA as [A1 A2 A3 A4 A5 A6].
              constructor; cbn [map w_src w_push w_sent w_handled w_dst w_done]; rewrite ?app_nil_r; auto.
              ** rewrite Hw. assumption.
              ** intros Hf. apply moment_more, A6, Hf.
           ++ destruct (active_more _ _ _ _ _ _ _ x p' out (i :: w_closed D w) (RRes out None (Some i)) HA I1 Hx Ef Er Ec Hk Hall Hrun) as (c' & lk' & H'). eauto.
      * injection Ec as <- <-. exists c0, c, lk. destruct HA as [A1 A2 A3 A4 A5 A6].
        constructor; cbn [map w_src w_push w_sent w_handled w_dst w_done set_reply ps_replied ps_fin]; rewrite ?app_nil_r; auto; try discriminate.
        -- rewrite Hw. destruct A1 as [N1 N2 N3 N4 N5]. constructor; auto.
        -- intros Hf. apply moment_more, A6, Hf.
  - assumption.
  - intros Hd. apply moment_more, I5, Hd.
Qed.

Lemma handle_closed q d d' b : d_loading D d = false -> handle D sz tid q d = Ret (d', b) -> d' = d.
Proof. unfold handle. intros ->. cbn. congruence. Qed.
Lemma handle_foreign q d d' b : p_tid q <> tid -> handle D sz tid q d = Ret (d', b) -> d' = d.
Proof.
  unfold handle. intros H. destruct (negb (d_loading D d)); [congruence|]. destruct (_ && _)%bool; [congruence|].
  destruct (N.eqb_spec (p_tid q) tid); [contradiction|]. cbn. congruence.
Qed.
Lemma handle_loading q d d' b : d_loading D d = true -> handle D sz tid q d = Ret (d', b) -> d_loading D d' = true.
Proof.
  unfold handle. intros Hl. rewrite Hl. cbn [negb]. destruct (_ && _)%bool; [intros X; injection X as <- <-; assumption|].
  destruct (negb (p_tid q =? tid)); [intros X; injection X as <- <-; assumption|]. destruct (negb (p_seq q =? d_seq D d)); [intros X; injection X as <- <-; reflexivity|].
  destruct (take_entries _ _ _ _ _ _) as [[[l s] []]|]; cbn [bind negb]; [|intros X; injection X as <- <-; reflexivity|discriminate].
  destruct (p_rows q) as [|r0 rs0]; [intros X; injection X as <- <-; reflexivity|]. destruct (db_load D s (r0 :: rs0)) as [[[s' k] e]|]; cbn [bind]; [|discriminate].
  destruct (ble k (d_big D d)); intros X; injection X as <- <-; reflexivity.
Qed.

Lemma inv_handle h w rs i q d b : Inv h w rs -> nth_error (w_sent D w) i = Some q -> answer i (w_handled D w) = None -> handle D sz tid q (w_dst D w) = Ret (d, b) ->
  let r := RRes [] (Some (i, b)) None in upto (handled_order (rs ++ [r])) ->
  Inv (h ++ [RHandle i]) (World D (w_src D w) (w_push D w) (w_sent D w) ((i, b) :: w_handled D w) (w_closed D w) d (w_done D w)) (rs ++ [r]).
Proof.
  intros [I1 I2 I3 I4 I5] Hq Hn Hh r Hu. rewrite handled_snoc in Hu. cbn [r r_handled] in Hu. apply upto_snoc in Hu as [Hu Hi].
  assert (Hlen : length (w_handled D w) = i) by (rewrite <- (map_length fst), I2, rev_length; lia).
  assert (Hi' : (i < length (w_sent D w))%nat) by (apply nth_error_Some; congruence).
  assert (Hmono : forall j c, answer j (w_handled D w) = Some c -> answer j ((i, b) :: w_handled D w) = Some c).
  { intros j c Hj. cbn. destruct (Nat.eqb_spec j i) as [->|]; [congruence|assumption]. }
  constructor; cbn [w_src w_push w_sent w_handled w_dst w_done].
  - rewrite writes_snoc, app_nil_r. assumption.
  - rewrite handled_snoc. cbn [r r_handled map fst]. rewrite rev_app_distr. cbn. now rewrite I2.
  - destruct (w_push D w) as [p|]; [|destruct I3 as (Y & _); rewrite Y in Hi'; cbn in Hi'; lia].
    destruct I3 as (c0 & c & lk & [A1 A2 A3 A4 A5 A6]). exists c0, c, lk.
    constructor; cbn [w_src w_push w_sent w_handled w_dst w_done length].
    + rewrite writes_snoc, app_nil_r. assumption.
    + lia.
    + intros Hd Hall c1 lk1 f1. rewrite Hlen, (firstn_snoc _ _ _ Hq). intros Hc. apply Forall_cons_iff in Hall as [Hb Hall]. cbn in Hb. subst b.
      apply chain_inv in Hc as (c2 & lk2 & Hc & Hsq & HG). rewrite Hlen in A3. destruct (A3 Hd Hall c2 lk2 false Hc) as (T & _).
      assert (Hfl : length (firstn i (w_sent D w)) = i) by (rewrite firstn_length; lia). rewrite Hfl in Hsq.
      destruct (handle_ok _ _ _ _ _ _ _ _ _ _ T Hsq HG Hh) as (T1 & T2 & T3). split; [assumption|]. split; [assumption|].
      intros qs q' Y. apply app_inj_tail in Y as [_ <-]. assumption.
    + intros Hr j Hj. rewrite answered_snoc in Hj. cbn in Hj. rewrite app_nil_r in Hj. auto.
    + intros Hr. destruct (A5 Hr) as [H1 H2]. split; [assumption|]. intros j Hj. auto.
    + intros Hf. apply moment_more, A6, Hf.
  - destruct (w_done D w) eqn:Ed; cbn [negb] in *.
    + apply handle_closed in Hh; [now subst|assumption].
    + eapply handle_loading; eauto.
  - intros Hd. rewrite Hd in I4. cbn in I4. apply handle_closed in Hh; [|assumption]. subst. apply moment_more, I5, Hd.
Qed.

Lemma dst_log_at l c0 c : dst_log l c0 c -> (c0 < c)%nat -> (1 <= c)%nat -> last_idx l = o + N.of_nat c - 1 /\ l_entries l <> [] /\
  forall i e, at_idx l i = Some e -> o <= i /\ nth_error A (N.to_nat (i - o)) = Some e.
Proof.
  intros [[_ ->]|(t & Ht & Hc & Eo & Ee)] H0 H1; [lia|].
  assert (Hl : length (l_entries l) = (c - t)%nat) by (rewrite Ee, skipn_length, firstn_length; lia).
  assert (Hne : l_entries l <> []) by (intros Y; rewrite Y in Hl; cbn in Hl; lia).
  split; [|split; [assumption|]].
  - unfold last_idx. destruct (l_entries l); [congruence|]. rewrite Eo, Hl. lia.
  - intros i e. unfold at_idx. destruct (N.ltb_spec i (l_oldest l)); [discriminate|]. rewrite Ee, nth_skipn. intros Y. apply nth_firstn in Y. split; [lia|]. rewrite <- Y. f_equal. lia.
Qed.
Lemma same_entries s m : src_at s m -> forall i e, at_idx (s_log D s) i = Some e -> o <= i /\ nth_error A (N.to_nat (i - o)) = Some e.
Proof.
  intros (_ & Hm & t & Ht & Eo & Ee) i e. unfold at_idx. destruct (N.ltb_spec i (l_oldest (s_log D s))); [discriminate|]. rewrite Ee, nth_skipn. intros Y. apply nth_firstn in Y. split; [lia|]. rewrite <- Y. f_equal. lia.
Qed.
Lemma all_true (l : list (nat * bool)) n : map fst l = rev (seq 0 n) -> (forall i, (i < n)%nat -> answer i l = Some true) -> Forall (fun x => snd x = true) l.
Proof.
  intros H1 H2. apply Forall_forall. intros [i b] Hx. assert (Hi : In i (map fst l)) by (apply (in_map fst) in Hx; exact Hx).
  assert (Hlt : (i < n)%nat) by (rewrite H1, <- in_rev in Hi; apply in_seq in Hi; lia).
  specialize (H2 i Hlt). rewrite (in_answer i l b) in H2; [cbn; congruence| |assumption]. rewrite H1. apply rev_seq_nodup.
Qed.

Lemma inv_finish h w rs p : Inv h w rs -> upto (handled_order rs) -> w_push D w = Some p -> ps_replied p = Some true ->
  let d := w_dst D w in
  Inv (h ++ [RFinish]) (World D (w_src D w) (w_push D w) (w_sent D w) (w_handled D w) (w_closed D w)
     (Dst D (d_log D d) (d_db D d) (d_mem D d) (d_big D d) (d_seq D d) false) true) (rs ++ [silent]).
Proof.
  intros [I1 I2 I3 I4 I5] Hu Hp Hr d. rewrite Hp in *. destruct I3 as (c0 & c & lk & [A1 A2 A3 A4 A5 A6]).
  destruct (A5 Hr) as [Hfin Hall]. constructor; cbn [w_src w_push w_sent w_handled w_dst w_done].
  - rewrite writes_snoc, app_nil_r. assumption.
  - rewrite handled_snoc. cbn. rewrite app_nil_r. assumption.
  - exists c0, c, lk. constructor; cbn [w_src w_push w_sent w_handled w_dst w_done]; auto.
    + rewrite writes_snoc, app_nil_r. assumption.
    + discriminate.
    + rewrite Hr. discriminate.
    + intros Hf. apply moment_more, A6, Hf.
  - reflexivity.
  - intros _. apply moment_more. destruct (w_done D w) eqn:Ed; [apply I5; reflexivity|].
    destruct (A6 Hfin) as (h1 & h2 & w1 & rs1 & E1 & E2 & Hs1 & Hm1). exists h1, h2, w1, rs1. split; [assumption|]. split; [assumption|].
    assert (Hlen : length (w_handled D w) = length (handled_order rs)) by (rewrite <- (map_length fst), I2, rev_length; reflexivity).
    rewrite Hu, <- Hlen in I2.
    assert (Hnh : length (w_handled D w) = length (w_sent D w)).
    { destruct (Nat.eq_dec (length (w_handled D w)) (length (w_sent D w))) as [|N]; [assumption|]. exfalso. assert (Hlt : (length (w_handled D w) < length (w_sent D w))%nat) by lia.
      specialize (Hall _ Hlt). apply answer_in, (in_map fst) in Hall. rewrite I2, <- in_rev in Hall. apply in_seq in Hall. cbn in Hall. lia. }
    pose proof (n_chain _ _ _ _ _ _ A1) as Hch. rewrite Hfin in Hch.
    specialize (A3 eq_refl (all_true _ _ I2 ltac:(rewrite Hnh; exact Hall))). rewrite Hnh, firstn_all in A3. destruct (A3 c lk true Hch) as (T & Tdb & Tm). specialize (Tdb eq_refl).
    assert (Hc0 : (c0 < c)%nat) by (inversion Hch as [|? ? ? ? ? ? ? _ _ (_ & _ & _ & _ & Y & _)]; lia).
    destruct (exists_last (l := w_sent D w)) as (qs & q & Eqs); [intros Y; rewrite Y in Hch; inversion Hch; destruct qs; discriminate|].
    destruct (dst_log_at _ _ _ (t_log _ _ _ _ _ T) Hc0 ltac:(lia)) as (Tl & Tn & Te). destruct (src_last _ _ Hs1) as [Sl Sn].
    unfold same_at. cbn [d_db d_log d_mem]. split; [unfold d; rewrite Tdb; symmetry; apply Hs1|]. split; [unfold d; congruence|]. split; [unfold d; rewrite (Tm _ _ Eqs); eauto|].
    split; [assumption|]. intros i e e' He He'. apply Te in He as [_ He]. apply (same_entries _ _ Hs1) in He' as [_ He']. congruence.
Qed.

Lemma start_src : src_at s0 (length L0).
Proof.
  split; [|split].
  - rewrite S_db. unfold state. rewrite Nat.sub_diag. reflexivity.
  - unfold A. rewrite app_length. lia.
  - exists 0%nat. split; [destruct L0; [congruence|cbn; lia]|]. split; [lia|]. rewrite S_log. unfold A. cbn [skipn]. rewrite firstn_app, firstn_all, Nat.sub_diag. cbn. now rewrite app_nil_r.
Qed.

Lemma inv_step h w rs x w' r G2 : G = writes (h ++ [x]) ++ G2 -> Inv h w rs -> rstep D sz tid chunk pipeline msg_size w x = Ret (w', r) ->
  run (h ++ [x]) = Ret (w', rs ++ [r]) -> upto (handled_order (rs ++ [r])) -> upto (answered_order (rs ++ [r])) -> no_intruder tid x ->
  (forall y, In y (r_sent r) -> fst y <= p_first (snd y)) -> Inv (h ++ [x]) w' (rs ++ [r]).
Proof.
  intros HG HI Hst Hrun Hu Hua Hni Hk. pose proof (i_src _ _ _ HI) as Hsrc.
  destruct x as [e| | |i|p|i|i|]; cbn [rstep] in Hst.
  - destruct (s_write D e (w_src D w)) as [s'|] eqn:Es; [|discriminate]. cbn [bind] in Hst. injection Hst as <- <-. apply inv_idle; auto.
    rewrite writes_snoc, app_length. cbn [length]. rewrite Nat.add_1_r, Nat.add_succ_r. eapply src_write; eauto.
    unfold A. rewrite nth_error_app2 by lia. replace (length L0 + length (writes h) - length L0)%nat with (length (writes h)) by lia.
    rewrite HG, writes_snoc, <- app_assoc, nth_error_app2, Nat.sub_diag by lia. reflexivity.
  - injection Hst as <- <-. apply inv_idle; auto. rewrite writes_snoc, app_nil_r. apply src_trunc. assumption.
  - destruct (w_push D w) as [p|] eqn:Ep; [injection Hst as <- <-; apply inv_same; [assumption|discriminate]|].
    destruct HI as [I1 I2 I3 I4 I5]. rewrite Ep in I3. destruct I3 as (Y1 & Y2 & Y3 & Y4 & Y5).
    destruct (send_many D tid chunk msg_size pipeline (w_src D w) _) as [p' out] eqn:Em. injection Hst as <- <-. cbn [r_sent] in Hk.
    pose proof Hsrc as (Z1 & Z2 & t & Ht & Eo & Ee).
    assert (Hoi : oldest_idx (s_log D (w_src D w)) = o + N.of_nat t).
    { unfold oldest_idx. destruct (src_last _ _ Hsrc) as [_ Hne]. destruct (l_entries (s_log D (w_src D w))); [congruence|assumption]. }
    assert (HN : sender t [] (Pst (oldest_idx (s_log D (w_src D w))) [] false 0 None) (length L0 + length (writes h)) t []).
    { constructor; cbn [ps_fin ps_from ps_key ps_seq]; auto; [constructor|lia]. }
    destruct (send_many_ok _ _ _ _ _ _ _ _ _ _ Hsrc HN ltac:(discriminate) Em Hk) as (c' & lk' & HN' & Hr' & Hf'). cbn [app] in HN', Hf'. cbn [ps_replied] in Hr'.
    constructor; cbn [w_src w_push w_sent w_handled w_dst w_done]; auto.
    + rewrite writes_snoc, app_nil_r. assumption.
    + rewrite handled_snoc. cbn. rewrite app_nil_r. assumption.
    + exists t, c', lk'. rewrite Y1, Y2, Y3 in *. cbn [app] in *. constructor; cbn [w_src w_push w_sent w_handled w_dst w_done length].
      * rewrite writes_snoc, app_nil_r. assumption.
      * lia.
      * intros _ _ c1 lk1 f1 Hc. cbn [firstn] in Hc. inversion Hc as [Q1 Q2 Q3 Q4|qs ? ? ? ? ? ? ? ? ? Q]; [|destruct qs; discriminate]. subst. split; [|split; [discriminate|]].
        -- constructor; cbn; auto. left. auto.
        -- intros qs q Q. destruct qs; discriminate.
      * intros _ j. rewrite answered_snoc, Y5. cbn. contradiction.
      * rewrite Hr'. discriminate.
      * intros Hf. destruct (Hf' Hf) as [-> Hm]. eapply moment_now; [exact Hrun|]. cbn [w_src w_sent]. auto.
    + rewrite Y4. discriminate.
  - destruct (nth_error (w_sent D w) i) as [q|] eqn:Eq; [|injection Hst as <- <-; apply inv_same; [assumption|discriminate]].
    destruct (answer i (w_handled D w)) eqn:Ea; [injection Hst as <- <-; apply inv_same; [assumption|discriminate]|].
    destruct (handle D sz tid q (w_dst D w)) as [[d b]|] eqn:Eh; [|discriminate]. cbn [bind] in Hst. injection Hst as <- <-. eapply inv_handle; eauto.
  - destruct (handle D sz tid p (w_dst D w)) as [[d b]|] eqn:Eh; [|discriminate]. cbn [bind] in Hst. injection Hst as <- <-. cbn in Hni.
    apply handle_foreign in Eh; [|assumption]. subst d. apply inv_idle; auto. rewrite writes_snoc, app_nil_r. assumption.
  - destruct (answer i (w_handled D w)) as [b|] eqn:Ea; [|injection Hst as <- <-; apply inv_same; [assumption|discriminate]].
    destruct (called D tid chunk msg_size i b (Some i) w) as [w1 r1] eqn:Ec. injection Hst as <- <-. eapply inv_called; eauto; [discriminate|]. intros ->. auto.
  - destruct (called D tid chunk msg_size i false None w) as [w1 r1] eqn:Ec. injection Hst as <- <-. eapply inv_called; eauto; discriminate.
  - destruct (w_push D w) as [p|] eqn:Ep; [|injection Hst as <- <-; apply inv_same; [assumption|discriminate]].
    destruct (ps_replied p) as [[|]|] eqn:Er; try (injection Hst as <- <-; apply inv_same; [assumption|discriminate]).
    injection Hst as <- <-. rewrite <- Ep. apply (inv_finish h w rs p HI); auto. rewrite handled_snoc in Hu. cbn in Hu. now rewrite app_nil_r in Hu.
Qed.

Lemma upto_pre a b : upto (a ++ b) -> upto a.
Proof. induction b as [|x b IH] using rev_ind; [now rewrite app_nil_r|]. rewrite app_assoc. intros H. apply upto_snoc in H as [H _]. auto. Qed.
Lemma inv_all h : forall G2 w rs, G = writes h ++ G2 -> run h = Ret (w, rs) -> upto (handled_order rs) -> upto (answered_order rs) -> Forall (no_intruder tid) h ->
  kept_unsent rs -> Inv h w rs.
Proof.
  induction h as [|x h IH] using rev_ind; intros G2 w rs HG Hrun Hu Hua Hni Hk.
  - cbn in Hrun. injection Hrun as <- <-. constructor; cbn; auto; [|discriminate]. rewrite Nat.add_0_r. apply start_src.
  - pose proof Hrun as Hrun0. unfold run in Hrun. rewrite exec_app in Hrun. fold (run h) in Hrun. destruct (run h) as [[w1 rs1]|] eqn:E1; [|discriminate].
    cbn [exec] in Hrun. destruct (rstep D sz tid chunk pipeline msg_size w1 x) as [[w2 r]|] eqn:E2; [|discriminate]. injection Hrun as <- <-.
    apply Forall_app in Hni as [Hni Hx]. apply Forall_inv in Hx. eapply inv_step; eauto.
    + eapply IH with (G2 := match x with SWrite e => [e] | _ => [] end ++ G2); eauto.
      * rewrite HG, writes_snoc, app_assoc. reflexivity.
      * rewrite handled_snoc in Hu. eapply upto_pre; eauto.
      * rewrite answered_snoc in Hua. eapply upto_pre; eauto.
      * intros r' o' p' Hr. apply Hk, in_or_app. auto.
    + intros [o' p'] Hy. apply (Hk r). apply in_or_app. right. now left. assumption.
Qed.
End Proofs.

(* What the proof needs of a database: [rows] its rows, [ser] their wire form, [ok] the
   states it reaches, [tl] the logs it parses. *)
Record laws (D : dbi) (V : Type) (rows : db_state D -> smap V) (ser : bytes -> V -> bytes) (ok : db_state D -> Prop) (tl : db_log D -> Prop) : Prop := {
  L_new : ok (db_new D) /\ rows (db_new D) = [];
  L_rows : forall s, ok s -> sorted (rows s) /\ forall k v, In (k, v) (rows s) -> length k = 16%nat;
  L_typed : forall x l, db_parse D x = Some l -> tl l;
  L_run : forall s l, ok s -> tl l -> db_valid D l = true -> exists s', db_run D s l = Ret s' /\ ok s' /\
    forall k, k <> db_key D l -> lookup k (rows s') = lookup k (rows s);
  L_det : forall s1 s2 l s1' s2', ok s1 -> ok s2 -> tl l -> db_valid D l = true -> lookup (db_key D l) (rows s1) = lookup (db_key D l) (rows s2) ->
    db_run D s1 l = Ret s1' -> db_run D s2 l = Ret s2' -> lookup (db_key D l) (rows s1') = lookup (db_key D l) (rows s2');
  L_key : forall l, db_valid D l = true -> length (db_key D l) = 16%nat;
  L_empty : forall l, db_parse D [] = Some l -> db_valid D l = false;
  L_dump : forall s start n, ok s -> db_dump D s start n = dump_rows ser (rows s) (fun b => above b (rows s)) start n;
  L_load : forall d s mid, ok d -> ok s -> sorted (rows d ++ mid) -> (forall kv, In kv mid -> In kv (rows s)) -> mid <> [] ->
    exists d', db_load D d (map (fun kv => ser (fst kv) (snd kv)) mid) = Ret (d', match last_key mid with Some k => k | None => [] end, E_OK) /\ ok d' /\ rows d' = rows d ++ mid;
  L_inj : forall s s', ok s -> ok s' -> rows s = rows s' -> s = s' }.

Theorem transfer_same D V rows ser ok tl sz tid chunk pipeline msg_size s max mem h w rs : laws D V rows ser ok tl ->
  member_state D s -> exec (rstep D sz tid chunk pipeline msg_size) (transfer_start D s max mem) h = Ret (w, rs) ->
  in_order tid h rs -> kept_unsent rs -> w_done D w = true ->
  exists h1 h2 w1 rs1, h = h1 ++ h2 /\ exec (rstep D sz tid chunk pipeline msg_size) (transfer_start D s max mem) h1 = Ret (w1, rs1) /\
    same_at D (w_dst D w) (w_src D w1).
Proof.
  intros [L1 L2 L3 L4 L5 L6 L7 L8 L9 L10] (HR & Hne & Ho) Hx (O1 & O2 & O3) Hk Hd.
  assert (Hok : ok (s_db D s)).
  { destruct HR as [es HR]. revert HR. generalize (proj1 L1). generalize (db_new D) as b. induction es as [|e es IH]; intros b Hb HR; cbn in HR; [injection HR as <-; assumption|].
    destruct (apply_ok D V rows ok tl L3 L4 e b Hb) as (b' & E & Hb'). rewrite E in HR. cbn in HR. eauto. }
  pose proof (inv_all D V rows ser ok tl L1 L2 L3 L4 L5 L6 L7 L8 L9 L10 sz tid chunk pipeline msg_size
    (l_entries (s_log D s)) (writes h) (s_db D s) (l_oldest (s_log D s)) Hok Hne Ho s max mem eq_refl eq_refl eq_refl h [] w rs (eq_sym (app_nil_r _)) Hx O1 O2 O3 Hk) as HI.
  destruct HI as [_ _ _ _ HI]. exact (HI Hd).
Qed.
