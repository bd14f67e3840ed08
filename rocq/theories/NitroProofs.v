(* Proofs about Nitro.v. *)
From Coq Require Import Strings.String Lia.
From Verif Require Import Nitro NitroSpec.

Lemma bind_ret {A B} (o : outcome A) (k : A -> outcome B) r : bind o k = Ret r <-> exists a, o = Ret a /\ k a = Ret r.
Proof. destruct o as [a|]; cbn [bind]; split. - intros H. now exists a. - intros (b & [= ->] & H). exact H. - discriminate. - intros (b & H & _). discriminate. Qed.
Lemma not_bad l : is_bad l = false <-> l <> Bad.
Proof. destruct l; cbn; split; congruence. Qed.

(* --- strings and numbers --- *)
Lemma string_value_spec len c rest v : string_value len c rest = Ret (Some v) <-> len = Some (blen v) /\ c = Some v /\ blen v < 2 ^ 63 /\ rest <> Bad.
Proof.
  unfold string_value, resize, MAX_SIZE. rewrite <- not_bad. split.
  - destruct len as [n|]; [|discriminate]. destruct (2 ^ 63 - 1 <? n) eqn:M; [discriminate|]. cbn [bind]. apply N.ltb_ge in M.
    destruct c as [c|]; [|discriminate]. destruct (N.eqb_spec (blen c) n) as [<-|]; [|discriminate]. destruct (is_bad rest); [discriminate|].
    intros [= ->]. repeat split. lia.
  - intros (-> & -> & M & ->). rewrite (proj2 (N.ltb_ge (2 ^ 63 - 1) (blen v))) by lia. cbn [bind]. now rewrite N.eqb_refl.
Qed.
Lemma text_spec i rest v r : cbor_text (Cons i rest) = Ret (Some (v, r)) <-> is_text i v /\ rest <> Bad /\ r = rest.
Proof.
  unfold is_text. split.
  - destruct i; try discriminate. cbn [cbor_text]. intros H. apply bind_ret in H as ([x|] & H & E); [|discriminate]. injection E as -> ->.
    apply string_value_spec in H as (-> & -> & M & B). auto.
  - intros ((-> & M) & B & ->). cbn [cbor_text]. rewrite (proj2 (string_value_spec _ _ rest v)) by auto. reflexivity.
Qed.
Lemma bytes_spec i rest v r : cbor_bytes (Cons i rest) = Ret (Some (v, r)) <-> is_bytes i v /\ rest <> Bad /\ r = rest.
Proof.
  unfold is_bytes. split.
  - destruct i; try discriminate; cbn [cbor_bytes].
    + intros H. apply bind_ret in H as ([x|] & H & E); [|discriminate]. injection E as -> ->. apply string_value_spec in H as (-> & -> & M & B). auto.
    + destruct (is_bad rest) eqn:B; [discriminate|]. apply not_bad in B. intros [= <- <-]. auto.
  - intros ([[-> ->]|[-> M]] & B & ->); cbn [cbor_bytes].
    + apply not_bad in B. now rewrite B.
    + rewrite (proj2 (string_value_spec _ _ rest v)) by auto. reflexivity.
Qed.
Lemma int_spec i rest z r : cbor_int (Cons i rest) = Some (z, r) <-> i = IInt z /\ int64 z /\ rest <> Bad /\ r = rest.
Proof.
  unfold int64. rewrite <- not_bad. split.
  - destruct i; try discriminate. cbn [cbor_int]. destruct (Z.leb_spec (- 2 ^ 63) v); [|discriminate]. destruct (Z.ltb_spec v (2 ^ 63)); [|discriminate].
    destruct (is_bad rest); [discriminate|]. intros [= <- <-]. auto.
  - intros (-> & [A B] & C & ->). cbn [cbor_int]. apply Z.leb_le in A. apply Z.ltb_lt in B. now rewrite A, B, C.
Qed.
Lemma is_bytes_fun i v v' : is_bytes i v -> is_bytes i v' -> v = v'.
Proof. intros [[-> ->]|[-> _]] [[E ->]|[E _]]; congruence. Qed.
Lemma is_text_fun i v v' : is_text i v -> is_text i v' -> v = v'.
Proof. intros [-> _] [E _]. congruence. Qed.
Lemma doc_items_not_bad ms l : doc_items ms l -> l <> Bad.
Proof. destruct 1; discriminate. Qed.
Lemma pcr_items_not_bad ps l : pcr_items ps l -> l <> Bad.
Proof. destruct 1; discriminate. Qed.
Lemma of_list_not_bad l : of_list l <> Bad.
Proof. destruct l; discriminate. Qed.

(* --- COSE --- *)
Lemma cose_valid_spec w h p g : cose_valid w (Cose h p g) = true <-> no_two_ints w h \/ (es384 w h /\ p <> [] /\ blen g = 96).
Proof.
  unfold cose_valid, no_two_ints, es384. cbn [cs_header cs_payload cs_sig]. split.
  - destruct (nw_cbor w h) as [[| | | | |l|]|] eqn:C; try discriminate. destruct (is_bad l) eqn:B; [discriminate|]. apply not_bad in B.
    destruct (cbor_int l) as [[k l1]|] eqn:K.
    2: { intros _. left. exists l. split; [reflexivity|]. split; [assumption|]. intros a b rest ->. left. intros A.
         rewrite (proj2 (int_spec (IInt a) (Cons (IInt b) rest) a (Cons (IInt b) rest))) in K; [discriminate|]. repeat split; try apply A. discriminate. }
    destruct l as [| |i rest]; try discriminate. apply int_spec in K as (-> & Ik & B1 & ->).
    destruct (cbor_int rest) as [[v l2]|] eqn:V.
    2: { intros _. left. eexists. split; [reflexivity|]. split; [discriminate|]. intros a b r [= <- ->]. right.
         destruct (is_bad r) eqn:Br; [right; now destruct r|]. apply not_bad in Br. left. intros I.
         rewrite (proj2 (int_spec (IInt b) r b r)) in V; [discriminate|]. repeat split; try apply I. assumption. }
    destruct rest as [| |i rest]; try discriminate. apply int_spec in V as (-> & Iv & B2 & ->).
    destruct rest; try discriminate. cbn [at_end negb]. destruct (Z.eqb_spec k 1) as [->|]; [|discriminate]. destruct (Z.eqb_spec v (-35)) as [->|]; [|discriminate].
    cbn [negb orb]. rewrite andb_true_iff, N.ltb_lt, N.eqb_eq. intros [P G]. right. split; [reflexivity|]. split; [intros ->; discriminate|assumption].
  - intros [(l & C & B & H)|(C & P & G)].
    + rewrite C. rewrite (proj2 (not_bad l) B). destruct (cbor_int l) as [[k l1]|] eqn:K; [|reflexivity].
      destruct l as [| |i rest]; try discriminate. apply int_spec in K as (-> & Ik & B1 & ->).
      destruct (cbor_int rest) as [[v l2]|] eqn:V; [|reflexivity].
      destruct rest as [| |i rest]; try discriminate. apply int_spec in V as (-> & Iv & B2 & ->).
      destruct (H _ _ _ eq_refl) as [X|[X|X]]; contradiction.
    + rewrite C. cbn. rewrite andb_true_iff, N.ltb_lt, N.eqb_eq. split; [|assumption]. destruct p; [congruence|]. unfold blen. cbn [length]. lia.
Qed.
Lemma cose_parse_spec w s c : cose_parse w s = Ret (Some c) <->
  is_cose w s (cs_header c) (cs_payload c) (cs_sig c) /\ cose_valid w c = true.
Proof.
  unfold cose_parse, is_cose. split.
  - destruct (nw_cbor w s) as [[| | | |[n|] l| |]|] eqn:C; try discriminate. destruct (N.eqb_spec n 4) as [->|]; [|discriminate]. cbn [negb orb].
    destruct (is_bad l) eqn:B; [discriminate|]. intros H. apply bind_ret in H as ([[h l1]|] & Hh & H); [|discriminate].
    destruct l as [| |a l]; try discriminate. apply bytes_spec in Hh as (Ba & _ & ->).
    destruct l as [| |[| | | | |[| |]|] l]; try discriminate. destruct (is_bad l) eqn:B2; [discriminate|].
    apply bind_ret in H as ([[p l2]|] & Hp & H); [|discriminate]. destruct l as [| |b l]; try discriminate. apply bytes_spec in Hp as (Bb & _ & ->).
    apply bind_ret in H as ([[g l3]|] & Hg & H); [|discriminate]. destruct l as [| |d l]; try discriminate. apply bytes_spec in Hg as (Bd & _ & ->).
    destruct l; try discriminate. cbn [at_end negb] in H. destruct (cose_valid w (Cose h p g)) eqn:V; [|discriminate]. injection H as <-.
    split; [|assumption]. exists a, b, d. auto.
  - intros ((a & b & d & C & Ba & Bb & Bd) & V). rewrite C. cbn [of_list negb orb is_bad N.eqb Pos.eqb].
    rewrite (proj2 (bytes_spec a _ (cs_header c) _)) by (repeat split; [exact Ba|discriminate]). cbn [bind is_bad].
    rewrite (proj2 (bytes_spec b _ (cs_payload c) _)) by (repeat split; [exact Bb|discriminate]). cbn [bind].
    rewrite (proj2 (bytes_spec d _ (cs_sig c) _)) by (repeat split; [exact Bd|discriminate]). cbn [bind at_end negb].
    destruct c as [h p g]. cbn [cs_header cs_payload cs_sig] in *. now rewrite V.
Qed.
Lemma head_spec major n : n < 2 ^ 64 -> cbor_head major n = head major n.
Proof.
  intros H. unfold cbor_head, head.
  assert (X : forall a b, b = a + 1 -> (n <? b) = (n <=? a)). { intros a b ->. rewrite N.add_1_r. destruct (N.leb_spec n a), (N.ltb_spec n (N.succ a)); lia. }
  rewrite (X 23 24), (X 255 (2 ^ 8)), (X 65535 (2 ^ 16)), (X 4294967295 (2 ^ 32)) by reflexivity.
  destruct (n <=? 23) eqn:E1; [reflexivity|]. destruct (n <=? 255) eqn:E2; [|destruct (n <=? 65535); [|destruct (n <=? 4294967295)]].
  - apply N.leb_le in E2. cbn [seq rev app map N.of_nat]. f_equal. f_equal. change (256 ^ 0) with 1. rewrite N.div_1_r. symmetry. apply N.mod_small. lia.
  - unfold be64, byte_at. rewrite !N.shiftr_div_pow2. reflexivity.
  - unfold be64, byte_at. rewrite !N.shiftr_div_pow2. reflexivity.
  - unfold be64, byte_at. rewrite !N.shiftr_div_pow2. reflexivity.
Qed.
Lemma signing_spec c : blen (cs_header c) < 2 ^ 64 -> blen (cs_payload c) < 2 ^ 64 -> signing_bytes c = sig_structure (cs_header c) (cs_payload c).
Proof.
  intros H P. unfold signing_bytes, sig_structure. rewrite !head_spec by (assumption || reflexivity). now rewrite <- !app_assoc.
Qed.
Lemma is_bytes_small i v : is_bytes i v -> blen v < 2 ^ 64.
Proof. intros [[_ ->]|[_ H]]; [reflexivity|]. apply (N.lt_trans _ _ _ H). reflexivity. Qed.

(* --- PCRs --- *)
Lemma to_int_int32 z : to_int z = int32 z.
Proof.
  unfold to_int, int32. destruct (Z.ltb_spec (z mod 2 ^ 32) (2 ^ 31)); lia.
Qed.
Definition put_all (ps m : list (Z * bytes)) : list (Z * bytes) := fold_left (fun m p => pcr_put (int32 (fst p)) (snd p) m) ps m.
Lemma pcrs_loop_spec : forall l m m', pcrs_loop l m = Ret (Some m') <-> exists ps, pcr_items ps l /\ m' = put_all ps m.
Proof.
  fix IH 1. intros [| |k [| |v l]] m m'; cbn [pcrs_loop].
  - split; [intros [= <-]; exists []; split; [constructor|reflexivity]|]. intros (ps & H & ->). inversion H; subst. reflexivity.
  - split; [discriminate|]. intros (ps & H & _). inversion H.
  - split; [|intros (ps & H & _); inversion H]. destruct (cbor_int _) as [[? ?]|]; discriminate.
  - split; [|intros (ps & H & _); inversion H]. destruct (cbor_int _) as [[? ?]|]; discriminate.
  - split.
    + destruct (cbor_int (Cons k (Cons v l))) as [[z r]|] eqn:K; [|discriminate]. apply int_spec in K as (-> & Iz & _ & ->).
      intros H. apply bind_ret in H as ([[b r]|] & B & H); [|discriminate]. apply bytes_spec in B as (Bv & _ & ->).
      apply IH in H as (ps & P & ->). exists ((z, b) :: ps). split; [now constructor|]. cbn [put_all fold_left fst snd]. now rewrite to_int_int32.
    + intros (ps & H & ->). inversion H as [|z v' b ps' l' Iz Bv P]; subst.
      rewrite (proj2 (int_spec (IInt z) (Cons v l) z (Cons v l))) by (repeat split; try apply Iz; discriminate).
      rewrite (proj2 (bytes_spec v l b l)) by (repeat split; [assumption|now apply (pcr_items_not_bad ps')]). cbn [bind].
      apply IH. exists ps'. split; [assumption|]. cbn [put_all fold_left fst snd]. now rewrite to_int_int32.
Qed.
Lemma bundle_loop_spec : forall l bs bs', bundle_loop l bs = Ret (Some bs') <-> exists vs xs, l = of_list vs /\ Forall2 is_bytes vs xs /\ bs' = bs ++ xs.
Proof.
  induction l as [| |v l IH]; intros bs bs'; cbn [bundle_loop].
  - split; [intros [= <-]; exists [], []; rewrite app_nil_r; auto|]. intros ([|? ?] & xs & E & F & ->); [|discriminate]. inversion F; subst. now rewrite app_nil_r.
  - split; [discriminate|]. intros ([|? ?] & xs & E & _); discriminate.
  - split.
    + intros H. apply bind_ret in H as ([[b r]|] & B & H); [|discriminate]. apply bytes_spec in B as (Bv & _ & ->).
      apply IH in H as (vs & xs & -> & F & ->). exists (v :: vs), (b :: xs). split; [reflexivity|]. split; [now constructor|]. now rewrite <- app_assoc.
    + intros ([|v' vs] & xs & E & F & ->); [discriminate|]. injection E as <- ->. inversion F as [|? b ? xs' Bv F']; subst.
      rewrite (proj2 (bytes_spec v (of_list vs) b (of_list vs))) by (repeat split; [assumption|apply of_list_not_bad]). cbn [bind].
      apply IH. exists vs, xs'. rewrite <- app_assoc. auto.
Qed.
Lemma pcr_items_fun ps l : pcr_items ps l -> forall ps', pcr_items ps' l -> ps = ps'.
Proof.
  induction 1 as [|i v b ps l Ii Bv P IH]; intros ps' H; inversion H; subst; [reflexivity|]. f_equal; [|now apply IH]. f_equal. eapply is_bytes_fun; eassumption.
Qed.
Lemma of_list_inj l : forall l', of_list l = of_list l' -> l = l'.
Proof. induction l as [|i l IH]; intros [|j l'] E; try discriminate; [reflexivity|]. injection E as -> E. f_equal. now apply IH. Qed.
Lemma is_bundle_fun i a b : is_bundle i a -> is_bundle i b -> a = b.
Proof.
  intros (n & vs & -> & F) (m & vs' & E & G). injection E as _ E. apply of_list_inj in E as <-. clear m. revert b G.
  induction F as [|v x vs xs B F IH]; intros b G; inversion G; subst; [reflexivity|]. f_equal; [eapply is_bytes_fun; eassumption|now apply IH].
Qed.
Lemma is_pcrs_fun i a b : is_pcrs i a -> is_pcrs i b -> a = b.
Proof. intros (l & -> & P) (l' & E & Q). injection E as <-. now apply (pcr_items_fun a l). Qed.

(* the map of PCRs *)
Definition keyed (m : list (Z * bytes)) : Prop := NoDup (map fst m).
Lemma keyed_filter f m : keyed m -> keyed (filter f m).
Proof.
  unfold keyed. induction m as [|[i v] m IH]; intros H; [constructor|]. cbn [filter]. inversion H; subst. destruct (f (i, v)); [|now apply IH].
  cbn [map fst]. constructor; [|now apply IH]. intros I. apply H2. apply in_map_iff in I as (x & E & I). apply filter_In in I as [I _]. apply in_map_iff. now exists x.
Qed.
Lemma keyed_put i v m : keyed m -> keyed (pcr_put i v m).
Proof.
  intros H. unfold pcr_put, keyed. cbn [map fst]. constructor; [|now apply keyed_filter].
  intros I. apply in_map_iff in I as (x & E & I). apply filter_In in I as [_ F]. rewrite E, Z.eqb_refl in F. discriminate.
Qed.
Lemma get_put i v m j : pcr_get j (pcr_put i v m) = if (i =? j)%Z then Some v else pcr_get j m.
Proof.
  unfold pcr_get, pcr_put. cbn [find fst]. destruct (Z.eqb_spec i j) as [->|N]; [reflexivity|].
  induction m as [|[k x] m IH]; [reflexivity|]. cbn [filter find fst]. destruct (Z.eqb_spec k i) as [->|M]; cbn [negb].
  - destruct (Z.eqb_spec i j); [contradiction|]. exact IH.
  - cbn [find fst]. destruct (Z.eqb_spec k j); [reflexivity|exact IH].
Qed.
Lemma find_snoc {A} (f : A -> bool) x l : find f (rev (x :: l)) = match find f (rev l) with Some y => Some y | None => if f x then Some x else None end.
Proof.
  cbn [rev]. generalize (rev l). intros r. induction r as [|y r IH]; [reflexivity|]. cbn [app find]. destruct (f y); [reflexivity|exact IH].
Qed.
Lemma get_put_all i : forall ps m, pcr_get i (put_all ps m) = match the_pcr i ps with Some v => Some v | None => pcr_get i m end.
Proof.
  induction ps as [|[k v] ps IH]; intros m; [reflexivity|]. unfold put_all in *. cbn [fold_left fst snd]. rewrite IH, get_put. unfold the_pcr.
  rewrite find_snoc. cbn [fst]. destruct (find _ (rev ps)) as [[? ?]|]; [reflexivity|]. destruct (int32 k =? i)%Z; reflexivity.
Qed.
Lemma keyed_put_all : forall ps m, keyed m -> keyed (put_all ps m).
Proof. induction ps as [|p ps IH]; intros m H; [exact H|]. apply IH. now apply keyed_put. Qed.
Lemma get_in i v m : keyed m -> (pcr_get i m = Some v <-> In (i, v) m).
Proof.
  unfold pcr_get, keyed. induction m as [|[k x] m IH]; intros H; [cbn; split; [discriminate|intros []]|]. cbn [map fst] in H. inversion H; subst.
  cbn [find fst In]. destruct (Z.eqb_spec k i) as [->|N].
  - split; [intros [= ->]; now left|]. intros [[= ->]|I]; [reflexivity|]. exfalso. apply H2. apply in_map_iff. now exists (i, v).
  - rewrite IH by assumption. split; [auto|]. intros [[= -> ->]|I]; [congruence|assumption].
Qed.
Lemma few_indices m : keyed m -> (forall i v, In (i, v) m -> (0 <= i < 32)%Z) -> (length m <= 32)%nat.
Proof.
  intros K H. rewrite <- (map_length fst). transitivity (length (map Z.of_nat (seq 0 32))); [|reflexivity].
  apply NoDup_incl_length; [exact K|]. intros i I. apply in_map_iff in I as ([j v] & <- & I). apply H in I. cbn [fst].
  apply in_map_iff. exists (Z.to_nat j). split; [lia|]. apply in_seq. lia.
Qed.
Lemma put_all_app a b m : put_all (a ++ b) m = put_all b (put_all a m).
Proof. apply fold_left_app. Qed.
Lemma put_all_empty ps : put_all ps [] = [] <-> ps = [].
Proof.
  split; [|intros ->; reflexivity]. destruct ps as [|p ps] using rev_ind; [reflexivity|]. rewrite put_all_app. discriminate.
Qed.

(* --- the members --- *)
(* what a member does, whatever follows *)
Definition effect (k : bytes) (v : item) (d d' : doc) : Prop :=
  let '(Doc mo di ti pc ce bu ke da no) := d in
  if beq k (ascii "module_id") then exists x, is_text v x /\ d' = Doc x di ti pc ce bu ke da no
  else if beq k (ascii "digest") then exists x, is_text v x /\ d' = Doc mo x ti pc ce bu ke da no
  else if beq k (ascii "certificate") then exists x, is_bytes v x /\ d' = Doc mo di ti pc x bu ke da no
  else if beq k (ascii "public_key") then exists x, is_bytes v x /\ d' = Doc mo di ti pc ce bu x da no
  else if beq k (ascii "user_data") then exists x, is_bytes v x /\ d' = Doc mo di ti pc ce bu ke x no
  else if beq k (ascii "nonce") then exists x, is_bytes v x /\ d' = Doc mo di ti pc ce bu ke da x
  else if beq k (ascii "pcrs") then exists ps, is_pcrs v ps /\ d' = Doc mo di ti (put_all ps pc) ce bu ke da no
  else if beq k (ascii "cabundle") then exists bs, is_bundle v bs /\ d' = Doc mo di ti pc ce (bu ++ bs) ke da no
  else if beq k (ascii "timestamp") then exists t, v = IInt t /\ int64 t /\ d' = Doc mo di t pc ce bu ke da no
  else False.
Lemma bind_bytes v rest (f : bytes -> doc) d' :
  (let* x := cbor_bytes (Cons v rest) in match x with Some (x, _) => Ret (Some (f x)) | None => Ret None end) = Ret (Some d') <->
  rest <> Bad /\ exists x, is_bytes v x /\ d' = f x.
Proof.
  rewrite bind_ret. split.
  - intros ([[x r]|] & H & E); [|discriminate]. injection E as <-. apply bytes_spec in H as (B & N & _). split; [assumption|]. now exists x.
  - intros (N & x & B & ->). exists (Some (x, rest)). split; [now apply bytes_spec|reflexivity].
Qed.
Lemma bind_text v rest (f : bytes -> doc) d' :
  (let* x := cbor_text (Cons v rest) in match x with Some (x, _) => Ret (Some (f x)) | None => Ret None end) = Ret (Some d') <->
  rest <> Bad /\ exists x, is_text v x /\ d' = f x.
Proof.
  rewrite bind_ret. split.
  - intros ([[x r]|] & H & E); [|discriminate]. injection E as <-. apply text_spec in H as (B & N & _). split; [assumption|]. now exists x.
  - intros (N & x & B & ->). exists (Some (x, rest)). split; [now apply text_spec|reflexivity].
Qed.
Lemma member_spec k v rest d d' : member_value k v rest d = Ret (Some d') <-> rest <> Bad /\ effect k v d d'.
Proof.
  destruct d as [mo di ti pc ce bu ke da no]. unfold member_value, effect.
  destruct (beq k (ascii "module_id")); [apply bind_text|]. destruct (beq k (ascii "digest")); [apply bind_text|].
  destruct (beq k (ascii "certificate")); [apply bind_bytes|]. destruct (beq k (ascii "public_key")); [apply bind_bytes|].
  destruct (beq k (ascii "user_data")); [apply bind_bytes|]. destruct (beq k (ascii "nonce")); [apply bind_bytes|].
  destruct (beq k (ascii "pcrs")).
  { split.
    - destruct v; try discriminate. rewrite bind_ret. intros ([m|] & H & E); [|discriminate]. destruct (is_bad rest) eqn:B; [discriminate|].
      injection E as <-. apply not_bad in B. split; [assumption|]. apply pcrs_loop_spec in H as (ps & P & ->). exists ps. split; [now exists l|reflexivity].
    - intros (B & ps & (l & -> & P) & ->). rewrite (proj2 (pcrs_loop_spec l pc (put_all ps pc))) by now exists ps. cbn [bind]. apply not_bad in B. now rewrite B. }
  destruct (beq k (ascii "cabundle")).
  { split.
    - destruct v; try discriminate. rewrite bind_ret. intros ([m|] & H & E); [|discriminate]. destruct (is_bad rest) eqn:B; [discriminate|].
      injection E as <-. apply not_bad in B. split; [assumption|]. apply bundle_loop_spec in H as (vs & xs & -> & F & ->). exists xs. split; [now exists len, vs|reflexivity].
    - intros (B & bs & (len & vs & -> & F) & ->). rewrite (proj2 (bundle_loop_spec (of_list vs) bu (bu ++ bs))) by now exists vs, bs. cbn [bind]. apply not_bad in B. now rewrite B. }
  destruct (beq k (ascii "timestamp")).
  { split.
    - destruct (cbor_int (Cons v rest)) as [[t r]|] eqn:I; [|discriminate]. intros [= <-]. apply int_spec in I as (-> & I & B & _). split; [assumption|]. now exists t.
    - intros (B & t & -> & I & ->). now rewrite (proj2 (int_spec (IInt t) rest t rest)). }
  split; [discriminate|tauto].
Qed.


Fixpoint built (ms : members) (d0 d : doc) : Prop :=
  match ms with [] => d = d0 | m :: ms' => exists d1, effect (fst m) (snd m) d0 d1 /\ built ms' d1 d end.
Lemma doc_loop_spec : forall l d0 d, doc_loop l d0 = Ret (Some d) <-> exists ms, doc_items ms l /\ built ms d0 d.
Proof.
  fix IH 1. intros [| |k [| |v l]] d0 d; cbn [doc_loop].
  - split; [intros [= <-]; exists []; split; [constructor|reflexivity]|]. intros (ms & H & B). inversion H; subst. cbn in B. now subst.
  - split; [discriminate|]. intros (ms & H & _). inversion H.
  - split; [|intros (ms & H & _); inversion H]. rewrite bind_ret. intros ([[? ?]|] & _ & H); discriminate.
  - split; [|intros (ms & H & _); inversion H]. rewrite bind_ret. intros ([[? ?]|] & _ & H); discriminate.
  - split.
    + rewrite bind_ret. intros ([[name r]|] & K & H); [|discriminate]. apply text_spec in K as (T & _ & ->).
      apply bind_ret in H as ([d1|] & M & H); [|discriminate]. apply member_spec in M as [N E]. apply IH in H as (ms & I & B).
      exists ((name, v) :: ms). split; [now constructor|]. exists d1. split; assumption.
    + intros (ms & H & B). inversion H as [|k' name v' ms' l' T I]; subst. destruct B as (d1 & E & B). cbn [fst snd] in E.
      rewrite (proj2 (text_spec k (Cons v l) name (Cons v l))) by (repeat split; try apply T; discriminate). cbn [bind].
      rewrite (proj2 (member_spec name v l d0 d1)) by (split; [now apply (doc_items_not_bad ms')|assumption]). cbn [bind].
      apply IH. now exists ms'.
Qed.

Ltac effects E := unfold effect in E; repeat match type of E with context [beq ?k (ascii ?s)] => let H := fresh in destruct (beq_spec k (ascii s)) as [H|H]; [subst k|] end; try contradiction E.
Lemma effect_good k v d d' : effect k v d d' -> good_member (k, v).
Proof.
  destruct d as [mo di ti pc ce bu ke da no]. intros E. unfold good_member; cbn [fst snd map].
  effects E.
  - destruct E as (x & X & _). left. split; [now left|eauto].
  - destruct E as (x & X & _). left. split; [right; now left|eauto].
  - destruct E as (x & X & _). right; left. split; [now left|eauto].
  - destruct E as (x & X & _). right; left. split; [right; now left|eauto].
  - destruct E as (x & X & _). right; left. split; [do 2 right; now left|eauto].
  - destruct E as (x & X & _). right; left. split; [do 3 right; now left|eauto].
  - destruct E as (x & X & _). do 2 right; left. split; [now left|eauto].
  - destruct E as (x & X & _). do 3 right; left. split; [now left|eauto].
  - destruct E as (x & X & Y & _). do 4 right. split; [now left|eauto].
Qed.
Lemma good_effect m d : good_member m -> exists d', effect (fst m) (snd m) d d'.
Proof.
  destruct m as [k v], d as [mo di ti pc ce bu ke da no]. unfold good_member, effect; cbn [fst snd map In].
  intros [[N [t T]]|[[N [b B]]|[[N [ps P]]|[[N [bs B]]|[N [t [T I]]]]]]];
    repeat (destruct N as [<-|N]); try contradiction;
    repeat match goal with |- context [beq (ascii ?a) (ascii ?b)] => let r := eval vm_compute in (beq (ascii a) (ascii b)) in change (beq (ascii a) (ascii b)) with r; cbv iota end;
    eexists; eexists; repeat (split; [eassumption|]); reflexivity.
Qed.
Lemma built_good ms : forall d0 d, built ms d0 d -> Forall good_member ms.
Proof. induction ms as [|[k v] ms IH]; intros d0 d H; [constructor|]. destruct H as (d1 & E & B). constructor; [eapply effect_good; eassumption|eapply IH; eassumption]. Qed.
Lemma good_built ms : forall d0, Forall good_member ms -> exists d, built ms d0 d.
Proof.
  induction ms as [|m ms IH]; intros d0 H; [now exists d0|]. inversion H; subst. destruct (good_effect m d0) as [d1 E]; [assumption|].
  destruct (IH d1) as [d B]; [assumption|]. exists d, d1. split; assumption.
Qed.

(* each field is what the last member says *)
Lemma the_cons name k v ms : the name ((k, v) :: ms) = match the name ms with Some x => Some x | None => if beq k (ascii name) then Some v else None end.
Proof. unfold the. rewrite find_snoc. cbn [fst]. destruct (find _ (rev ms)) as [[? ?]|]; [reflexivity|]. now destruct (beq k (ascii name)). Qed.
Definition holds (R : item -> bytes -> Prop) (o : option item) (v0 v : bytes) : Prop := match o with Some i => R i v | None => v = v0 end.
Lemma built_field name (R : item -> bytes -> Prop) (get : doc -> bytes) :
  (forall k v d d', effect k v d d' -> if beq k (ascii name) then R v (get d') else get d' = get d) ->
  forall ms d0 d, built ms d0 d -> holds R (the name ms) (get d0) (get d).
Proof.
  intros E. induction ms as [|[k v] ms IH]; intros d0 d H; [cbn in H |- *; now subst|]. destruct H as (d1 & X & B). rewrite the_cons.
  specialize (IH d1 d B). specialize (E k v d0 d1 X). unfold holds in *. destruct (the name ms) as [i|]; [exact IH|].
  destruct (beq k (ascii name)); [now rewrite IH|congruence].
Qed.
Ltac field_of := intros k v [mo di ti pc ce bu ke da no] d' E; effects E;
  destruct E as (x & X & E'); repeat match goal with H : _ /\ _ |- _ => destruct H end; subst d';
  cbn [do_module do_digest do_time do_pcrs do_cert do_bundle do_key do_data do_nonce];
  first [assumption | reflexivity | now exists x].
Lemma field_module : forall k v d d', effect k v d d' -> if beq k (ascii "module_id") then is_text v (do_module d') else do_module d' = do_module d. Proof. field_of. Qed.
Lemma field_digest : forall k v d d', effect k v d d' -> if beq k (ascii "digest") then is_text v (do_digest d') else do_digest d' = do_digest d. Proof. field_of. Qed.
Lemma field_cert : forall k v d d', effect k v d d' -> if beq k (ascii "certificate") then is_bytes v (do_cert d') else do_cert d' = do_cert d. Proof. field_of. Qed.
Lemma field_key : forall k v d d', effect k v d d' -> if beq k (ascii "public_key") then is_bytes v (do_key d') else do_key d' = do_key d. Proof. field_of. Qed.
Lemma field_data : forall k v d d', effect k v d d' -> if beq k (ascii "user_data") then is_bytes v (do_data d') else do_data d' = do_data d. Proof. field_of. Qed.
Lemma field_nonce : forall k v d d', effect k v d d' -> if beq k (ascii "nonce") then is_bytes v (do_nonce d') else do_nonce d' = do_nonce d. Proof. field_of. Qed.
Lemma field_time : forall k v d d', effect k v d d' -> if beq k (ascii "timestamp") then v = IInt (do_time d') else do_time d' = do_time d. Proof. field_of. Qed.
Lemma field_pcrs : forall k v d d', effect k v d d' -> if beq k (ascii "pcrs") then exists ps, is_pcrs v ps /\ do_pcrs d' = put_all ps (do_pcrs d) else do_pcrs d' = do_pcrs d.
Proof. intros k v [mo di ti pc ce bu ke da no] d' E; effects E;
  destruct E as (x & X & E'); repeat match goal with H : _ /\ _ |- _ => destruct H end; subst d';
  cbn [do_module do_digest do_time do_pcrs do_cert do_bundle do_key do_data do_nonce];
  first [assumption | reflexivity | now exists x].
Qed.
Lemma field_bundle : forall k v d d', effect k v d d' -> if beq k (ascii "cabundle") then exists bs, is_bundle v bs /\ do_bundle d' = do_bundle d ++ bs else do_bundle d' = do_bundle d.
Proof. intros k v [mo di ti pc ce bu ke da no] d' E; effects E;
  destruct E as (x & X & E'); repeat match goal with H : _ /\ _ |- _ => destruct H end; subst d';
  cbn [do_module do_digest do_time do_pcrs do_cert do_bundle do_key do_data do_nonce];
  first [assumption | reflexivity | now exists x].
Qed.
Lemma built_time ms : forall d0 d, built ms d0 d -> match the "timestamp" ms with Some i => i = IInt (do_time d) | None => do_time d = do_time d0 end.
Proof.
  induction ms as [|[k v] ms IH]; intros d0 d H; [cbn in H |- *; now subst|]. destruct H as (d1 & X & B). rewrite the_cons.
  specialize (IH d1 d B). pose proof (field_time k v d0 d1 X) as E. destruct (the "timestamp" ms) as [i|]; [exact IH|].
  destruct (beq k (ascii "timestamp")); [now rewrite IH|congruence].
Qed.
Lemma built_pcrs ms : forall d0 d, built ms d0 d -> exists ps, all_pcrs ms ps /\ do_pcrs d = put_all ps (do_pcrs d0).
Proof.
  induction ms as [|[k v] ms IH]; intros d0 d H; [cbn in H; subst; now exists []|]. destruct H as (d1 & X & B).
  destruct (IH d1 d B) as (ps & A & ->). pose proof (field_pcrs k v d0 d1 X) as E. cbn [all_pcrs]. destruct (beq k (ascii "pcrs")).
  - destruct E as (a & P & ->). exists (a ++ ps). split; [now exists a, ps|]. now rewrite put_all_app.
  - rewrite E. exists ps. split; [now exists [], ps|reflexivity].
Qed.
Lemma built_bundle ms : forall d0 d, built ms d0 d -> exists bs, all_certs ms bs /\ do_bundle d = do_bundle d0 ++ bs.
Proof.
  induction ms as [|[k v] ms IH]; intros d0 d H; [cbn in H; subst; exists []; split; [reflexivity|now rewrite app_nil_r]|]. destruct H as (d1 & X & B).
  destruct (IH d1 d B) as (bs & A & ->). pose proof (field_bundle k v d0 d1 X) as E. cbn [all_certs]. destruct (beq k (ascii "cabundle")).
  - destruct E as (a & P & ->). exists (a ++ bs). split; [now exists a, bs|]. now rewrite app_assoc.
  - rewrite E. exists bs. split; [now exists [], bs|reflexivity].
Qed.
Lemma all_pcrs_fun ms : forall a b, all_pcrs ms a -> all_pcrs ms b -> a = b.
Proof.
  induction ms as [|[k v] ms IH]; intros a b A B; [cbn in *; congruence|]. destruct A as (a1 & a2 & -> & A1 & A2), B as (b1 & b2 & -> & B1 & B2).
  f_equal; [|now apply IH]. destruct (beq k (ascii "pcrs")); [eapply is_pcrs_fun; eassumption|congruence].
Qed.
Lemma all_certs_fun ms : forall a b, all_certs ms a -> all_certs ms b -> a = b.
Proof.
  induction ms as [|[k v] ms IH]; intros a b A B; [cbn in *; congruence|]. destruct A as (a1 & a2 & -> & A1 & A2), B as (b1 & b2 & -> & B1 & B2).
  f_equal; [|now apply IH]. destruct (beq k (ascii "cabundle")); [eapply is_bundle_fun; eassumption|congruence].
Qed.
Lemma bytes_value_fun o a b : bytes_value o a -> bytes_value o b -> a = b.
Proof. destruct o; cbn; [apply is_bytes_fun|congruence]. Qed.
Lemma text_value_fun o a b : text_value o a -> text_value o b -> a = b.
Proof. destruct o; cbn; [apply is_text_fun|congruence]. Qed.

Lemma size_ok c : negb ((blen c <? 1) || (1024 <? blen c))%bool = true <-> 1 <= blen c <= 1024.
Proof. rewrite negb_true_iff, orb_false_iff, !N.ltb_ge. tauto. Qed.
Lemma doc_valid_spec ms d : built ms empty_doc d ->
  (doc_valid d = true <-> exists ps bs certb data, all_pcrs ms ps /\ all_certs ms bs /\ bytes_value (the "certificate" ms) certb /\
     good_values ms ps bs certb /\ bytes_value (the "user_data" ms) data /\ blen data <= 512).
Proof.
  intros B.
  pose proof (built_field "module_id" _ _ field_module _ _ _ B) as Fm. pose proof (built_field "digest" _ _ field_digest _ _ _ B) as Fd.
  pose proof (built_field "certificate" _ _ field_cert _ _ _ B) as Fc. pose proof (built_field "public_key" _ _ field_key _ _ _ B) as Fk.
  pose proof (built_field "user_data" _ _ field_data _ _ _ B) as Fu. pose proof (built_field "nonce" _ _ field_nonce _ _ _ B) as Fn.
  pose proof (built_time _ _ _ B) as Ft. destruct (built_pcrs _ _ _ B) as (ps & Ap & Ep). destruct (built_bundle _ _ _ B) as (bs & Ab & Eb).
  change (text_value (the "module_id" ms) (do_module d)) in Fm. change (text_value (the "digest" ms) (do_digest d)) in Fd.
  change (bytes_value (the "certificate" ms) (do_cert d)) in Fc. change (bytes_value (the "public_key" ms) (do_key d)) in Fk.
  change (bytes_value (the "user_data" ms) (do_data d)) in Fu. change (bytes_value (the "nonce" ms) (do_nonce d)) in Fn.
  cbn [do_pcrs do_bundle do_time empty_doc app] in Ep, Eb, Ft.
  assert (Kd : keyed (do_pcrs d)) by (rewrite Ep; apply keyed_put_all; constructor).
  assert (Gt : forall i v, the_pcr i ps = Some v <-> In (i, v) (do_pcrs d)).
  { intros i v. rewrite <- get_in by assumption. rewrite Ep, get_put_all. cbn. destruct (the_pcr i ps); [tauto|split; discriminate]. }
  unfold doc_valid. rewrite !andb_true_iff. split.
  - intros ((((((((((V1 & V2) & V3) & V4) & V5) & V6) & V7) & V8) & V9) & V10) & V11).
    apply negb_true_iff in V1, V3, V8, V9, V10, V11. apply beq_eq in V2. apply Z.leb_gt in V3. apply N.ltb_ge in V9, V10, V11. apply size_ok in V6.
    apply N.eqb_neq in V1. apply Nat.eqb_neq in V8. rewrite forallb_forall in V5, V7.
    exists ps, bs, (do_cert d), (do_data d). split; [assumption|]. split; [assumption|]. split; [assumption|]. split; [|now split].
    split. { exists (do_module d). split; [assumption|]. intros E. rewrite E in V1. now apply V1. }
    split; [now rewrite <- V2|]. split. { exists (do_time d). destruct (the "timestamp" ms); [now subst|]. lia. }
    split. { intros E. rewrite E in Ep. cbn in Ep. rewrite Ep in V4. discriminate. }
    split. { intros i v H. apply Gt in H. specialize (V5 _ H). cbn [fst snd] in V5. apply andb_true_iff in V5 as [A C].
      apply negb_true_iff, orb_false_iff in A as [A1 A2]. apply Z.ltb_ge in A1. apply Z.leb_gt in A2. rewrite !orb_true_iff, !N.eqb_eq in C. split; [lia|tauto]. }
    split; [assumption|]. split. { intros E. rewrite E in Eb. rewrite Eb in V8. now apply V8. }
    split. { apply Forall_forall. intros c H. apply size_ok, V7. now rewrite Eb. }
    split; [exists (do_key d); now split|exists (do_nonce d); now split].
  - intros (ps' & bs' & certb & data & Ap' & Ab' & Fc' & G & Fu' & Ud).
    assert (ps' = ps) as -> by (eapply all_pcrs_fun; eassumption). assert (bs' = bs) as -> by (eapply all_certs_fun; eassumption).
    assert (certb = do_cert d) as -> by (eapply bytes_value_fun; eassumption). assert (data = do_data d) as -> by (eapply bytes_value_fun; eassumption).
    destruct G as ((t & T1 & T2) & G2 & (ti & G3 & G3') & G4 & G5 & G6 & G7 & G8 & (k & G9 & G9') & (n & G10 & G10')).
    assert (t = do_module d) as -> by (eapply text_value_fun; eassumption). assert (k = do_key d) as -> by (eapply bytes_value_fun; eassumption).
    assert (n = do_nonce d) as -> by (eapply bytes_value_fun; eassumption). pose proof (text_value_fun _ _ _ G2 Fd) as Ed. rewrite G3 in Ft. injection Ft as ->.
    assert (I5 : forall i v, In (i, v) (do_pcrs d) -> (0 <= i < 32)%Z /\ (blen v = 32 \/ blen v = 48 \/ blen v = 64)) by (intros i v H; apply G5, Gt, H).
    repeat split.
    + apply negb_true_iff, N.eqb_neq. intros E. apply T2. unfold blen in E. destruct (do_module d); [reflexivity|cbn in E; lia].
    + now apply beq_eq.
    + apply negb_true_iff, Z.leb_gt. assumption.
    + apply negb_true_iff, orb_false_iff. split.
      * apply Nat.ltb_ge. destruct (do_pcrs d) eqn:Q; [|cbn; lia]. exfalso. apply G4. apply (put_all_empty ps). congruence.
      * apply Nat.ltb_ge. apply few_indices; [assumption|]. intros i v H. now apply (I5 i v).
    + apply forallb_forall. intros [i v] H. destruct (I5 i v H) as [R C]. cbn [fst snd]. apply andb_true_iff. split.
      * apply negb_true_iff, orb_false_iff. split; [apply Z.ltb_ge|apply Z.leb_gt]; lia.
      * rewrite !orb_true_iff, !N.eqb_eq. tauto.
    + now apply size_ok.
    + apply forallb_forall. intros c H. apply size_ok. rewrite Forall_forall in G8. apply G8. now rewrite <- Eb.
    + apply negb_true_iff, Nat.eqb_neq. rewrite Eb. destruct bs; [congruence|discriminate].
    + now apply negb_true_iff, N.ltb_ge.
    + now apply negb_true_iff, N.ltb_ge.
    + now apply negb_true_iff, N.ltb_ge.
Qed.

Lemma whole_cert_spec w s c : whole_cert w s = Some c <-> takes_all w s c.
Proof.
  unfold whole_cert, takes_all. destruct (w_d2i w s) as [[c' n]|]; [|split; discriminate].
  destruct (N.eqb_spec n (blen s)) as [->|N]; split; congruence.
Qed.
Lemma bundle_certs_spec w l cs : bundle_certs w l = Some cs <-> Forall2 (takes_all w) l cs.
Proof.
  revert cs. induction l as [|s l IH]; intros cs; cbn [bundle_certs].
  - split; [intros [= <-]; constructor|]. intros H. now inversion H.
  - split.
    + destruct (whole_cert w s) as [c|] eqn:C; [|discriminate]. destruct (bundle_certs w l) as [cs'|] eqn:E; [|discriminate]. intros [= <-].
      constructor; [now apply whole_cert_spec|now apply IH].
    + intros H. inversion H as [|? c ? cs' C F]; subst. apply whole_cert_spec in C. apply IH in F. now rewrite C, F.
Qed.
Lemma verify_spec w d c now : nitro_verify w d c now = true <->
  exists cert cas key t, takes_all (nw_world w) (do_cert d) cert /\ Forall2 (takes_all (nw_world w)) (do_bundle d) cas /\
    In t [now + 3600; now; now - 3600]%Z /\ w_chain (nw_world w) (nw_roots w) cas cert t = true /\ w_pubkey (nw_world w) cert = Some (PEc key) /\ blen (cs_sig c) = 96 /\
    w_ecdsa (nw_world w) key (w_sha384 (nw_world w) (signing_bytes c)) (be_value (firstn 48 (cs_sig c))) (be_value (skipn 48 (cs_sig c))) = true.
Proof.
  unfold nitro_verify. split.
  - destruct (whole_cert (nw_world w) (do_cert d)) as [cert|] eqn:C; [|discriminate]. destruct (bundle_certs (nw_world w) (do_bundle d)) as [cas|] eqn:B; [|discriminate].
    destruct (existsb _ _) eqn:X; [|discriminate]. cbn [negb]. apply existsb_exists in X as (t & It & Ct).
    destruct (w_pubkey (nw_world w) cert) as [k|] eqn:P; [|discriminate]. destruct (N.eqb_spec (blen (cs_sig c)) 96) as [L|]; [|discriminate]. cbn [negb].
    destruct k as [|key|]; try discriminate. intros V. exists cert, cas, key, t. split; [now apply whole_cert_spec|]. split; [now apply bundle_certs_spec|]. auto 10.
  - intros (cert & cas & key & t & C & B & It & Ct & P & L & V). apply whole_cert_spec in C. apply bundle_certs_spec in B. rewrite C, B.
    rewrite (proj2 (existsb_exists _ _)) by (exists t; split; assumption). cbn [negb]. rewrite P, L. exact V.
Qed.
Lemma pcrs_match_spec local remote : pcrs_match local remote = true <->
  forall i, In i [0; 1; 2]%Z -> exists v, pcr_get i local = Some v /\ pcr_get i remote = Some v.
Proof.
  unfold pcrs_match.
  assert (M : forall i, pcr_matches i local remote = true <-> exists v, pcr_get i local = Some v /\ pcr_get i remote = Some v).
  { intros i. unfold pcr_matches. destruct (pcr_get i local) as [a|]; [|split; [discriminate|intros (v & H & _); discriminate]].
    destruct (pcr_get i remote) as [b|]; [|split; [discriminate|intros (v & _ & H); discriminate]]. rewrite beq_eq. split; [intros ->; now exists b|].
    intros (v & A & B). congruence. }
  rewrite !andb_true_iff, !M. split.
  - intros [[A B] C] i [<-|[<-|[<-|[]]]]; assumption.
  - intros H. repeat split; apply H; cbn; auto.
Qed.

Definition code_header (w : nworld) (h p g : bytes) : Prop := no_two_ints w h \/ (es384 w h /\ p <> [] /\ blen g = 96).
Lemma attest_spec w local ev now a : nitro_attest w local ev now = Ret (Some a) <-> good_nitro w local ev now (code_header w) a.
Proof.
  unfold nitro_attest, good_nitro. split.
  - rewrite bind_ret. intros ([c|] & C & H); [|discriminate]. apply cose_parse_spec in C as [C V]. destruct c as [h p g]. cbn [cs_header cs_payload cs_sig] in *.
    apply cose_valid_spec in V. apply bind_ret in H as ([d|] & D & H); [|discriminate].
    unfold doc_parse in D. destruct (nw_cbor w p) as [[| | | | |l|]|] eqn:P; try discriminate. destruct (is_bad l); [discriminate|].
    apply bind_ret in D as ([d'|] & L & D); [|discriminate]. destruct (doc_valid d') eqn:Vd; [|discriminate]. injection D as ->.
    apply doc_loop_spec in L as (ms & I & B). pose proof (proj1 (doc_valid_spec ms d B) Vd) as (ps & bs & certb & data & A1 & A2 & A3 & A4 & A5 & A6).
    destruct (nitro_verify w d (Cose h p g) now) eqn:Nv; [|discriminate]. destruct (pcrs_match local (do_pcrs d)) eqn:Pm; [|discriminate].
    cbn [andb] in H. injection H as H. apply verify_spec in Nv as (cert & cas & key & t & N1 & N2 & N3 & N4 & N5 & N6 & N7). cbn [cs_sig] in *.
    destruct (built_pcrs _ _ _ B) as (ps' & Ap & Ep). assert (ps' = ps) as -> by (eapply all_pcrs_fun; eassumption).
    destruct (built_bundle _ _ _ B) as (bs' & Ab & Eb). assert (bs' = bs) as -> by (eapply all_certs_fun; eassumption). cbn in Eb.
    pose proof (built_field "certificate" _ _ field_cert _ _ _ B) as Fc. assert (do_cert d = certb) as Ec by (eapply bytes_value_fun; eassumption).
    pose proof (built_field "user_data" _ _ field_data _ _ _ B) as Fu. assert (do_data d = data) as Eu by (eapply bytes_value_fun; eassumption).
    exists h, p, g, ms, ps, bs, certb, cert, cas, key, t, data.
    split; [assumption|]. split; [exact V|]. split; [now exists l|]. split; [eapply built_good; eassumption|]. repeat (split; [assumption|]).
    split; [now rewrite <- Ec|]. split; [now rewrite <- Eb|]. repeat (split; [assumption|]).
    split. { destruct C as (i1 & i2 & i3 & _ & Bh & Bp & _). rewrite signing_spec in N7 by (eapply is_bytes_small; eassumption). exact N7. }
    split. { intros i Ii. destruct (proj1 (pcrs_match_spec _ _) Pm i Ii) as (v & L1 & L2). exists v. split; [assumption|]. rewrite Ep, get_put_all in L2. destruct (the_pcr i ps); [assumption|discriminate]. }
    repeat (split; [assumption|]). now rewrite <- Eu.
  - intros (h & p & g & ms & ps & bs & certb & cert & cas & key & t & data & C & V & (l & P & I) & G & A1 & A2 & A3 & A4 & N1 & N2 & N3 & N4 & N5 & N6 & N7 & Pm & A5 & A6 & Wd).
    rewrite (proj2 (cose_parse_spec w ev (Cose h p g))) by (split; [exact C|apply cose_valid_spec; exact V]). cbn [bind cs_payload].
    destruct (good_built ms empty_doc G) as [d B].
    assert (Vd : doc_valid d = true) by (apply (doc_valid_spec ms d B); exists ps, bs, certb, data; auto 10).
    assert (D : doc_parse w p = Ret (Some d)).
    { unfold doc_parse. rewrite P, (proj2 (not_bad l) (doc_items_not_bad _ _ I)). rewrite (proj2 (doc_loop_spec l empty_doc d)) by now exists ms. cbn [bind]. now rewrite Vd. }
    rewrite D. cbn [bind].
    destruct (built_pcrs _ _ _ B) as (ps' & Ap & Ep). assert (ps' = ps) as -> by (eapply all_pcrs_fun; eassumption).
    destruct (built_bundle _ _ _ B) as (bs' & Ab & Eb). assert (bs' = bs) as -> by (eapply all_certs_fun; eassumption). cbn in Eb.
    pose proof (built_field "certificate" _ _ field_cert _ _ _ B) as Fc. assert (do_cert d = certb) as Ec by (eapply bytes_value_fun; eassumption).
    pose proof (built_field "user_data" _ _ field_data _ _ _ B) as Fu. assert (do_data d = data) as Eu by (eapply bytes_value_fun; eassumption).
    rewrite (proj2 (verify_spec w d (Cose h p g) now)).
    2: { exists cert, cas, key, t. rewrite Ec, Eb. repeat (split; [assumption|]). cbn [cs_sig]. destruct C as (i1 & i2 & i3 & _ & Bh & Bp & _).
      rewrite signing_spec by (eapply is_bytes_small; eassumption). exact N7. }
    rewrite (proj2 (pcrs_match_spec local (do_pcrs d))).
    2: { intros i Ii. destruct (Pm i Ii) as (v & L1 & L2). exists v. split; [assumption|]. rewrite Ep, get_put_all, L2. reflexivity. }
    cbn [andb]. now rewrite Eu, Wd.
Qed.

(* --- crashes --- *)
Definition ends {A} (o : outcome A) : Prop := exists r, o = Ret r.
Lemma ends_bind {A B} (o : outcome A) (k : A -> outcome B) : ends o -> (forall r, o = Ret r -> ends (k r)) -> ends (let* x := o in k x).
Proof. intros [r ->] H. cbn. now apply H. Qed.
Lemma ends_ret {A} (r : A) : ends (Ret r). Proof. now exists r. Qed.
Lemma ends_if {A} (b : bool) (x y : outcome A) : ends x -> ends y -> ends (if b then x else y). Proof. now destruct b. Qed.
Lemma string_ends len c rest : short len -> ends (string_value len c rest).
Proof.
  intros H. unfold string_value. destruct len as [n|]; [|apply ends_ret]. cbn in H. unfold resize. rewrite (proj2 (N.ltb_ge MAX_SIZE n)) by (unfold MAX_SIZE; lia).
  cbn [bind]. destruct c; [apply ends_if|]; apply ends_ret.
Qed.
Lemma text_ends l : short_items l -> ends (cbor_text l).
Proof. destruct l as [| |[] l]; cbn; try (intros; apply ends_ret). intros [S _]. apply ends_bind; [now apply string_ends|]. intros [?|] _; apply ends_ret. Qed.
Lemma bytes_ends l : short_items l -> ends (cbor_bytes l).
Proof.
  destruct l as [| |[] l]; cbn; try (intros; apply ends_ret).
  - intros [S _]. apply ends_bind; [now apply string_ends|]. intros [?|] _; apply ends_ret.
  - intros _. apply ends_if; apply ends_ret.
Qed.
Lemma bytes_rest l b r : cbor_bytes l = Ret (Some (b, r)) -> short_items l -> short_items r.
Proof.
  destruct l as [| |[] l]; cbn; try discriminate.
  - intros H [_ S]. apply bind_ret in H as ([v|] & _ & H); [|discriminate]. now injection H as _ <-.
  - destruct (is_bad l); [discriminate|]. intros [= _ <-] [_ S]. assumption.
Qed.
Lemma pcrs_ends : forall l m, short_items l -> ends (pcrs_loop l m).
Proof.
  fix IH 1. intros [| |k [| |v l]] m H; cbn [pcrs_loop]; try apply ends_ret.
  - destruct (cbor_int _) as [[? ?]|]; apply ends_ret.
  - destruct (cbor_int _) as [[? ?]|]; apply ends_ret.
  - destruct (cbor_int _) as [[i ?]|]; [|apply ends_ret]. destruct H as [_ H]. apply ends_bind; [now apply bytes_ends|].
    intros [[b ?]|] _; [|apply ends_ret]. apply IH. apply H.
Qed.
Lemma bundle_ends : forall l m, short_items l -> ends (bundle_loop l m).
Proof.
  fix IH 1. intros [| |v l] m H; cbn [bundle_loop]; try apply ends_ret. apply ends_bind; [now apply bytes_ends|].
  intros [[b ?]|] _; [|apply ends_ret]. apply IH. apply H.
Qed.
Lemma member_ends k v rest d : short_items (Cons v rest) -> ends (member_value k v rest d).
Proof.
  intros H. destruct d as [mo di ti pc ce bu ke da no]. unfold member_value.
  repeat (apply ends_if; [apply ends_bind; [first [now apply text_ends|now apply bytes_ends]|intros [[? ?]|] _; apply ends_ret]|]).
  apply ends_if.
  { destruct v; try apply ends_ret. apply ends_bind; [apply pcrs_ends; apply H|]. intros [?|] _; [apply ends_if|]; apply ends_ret. }
  apply ends_if.
  { destruct v; try apply ends_ret. apply ends_bind; [apply bundle_ends; apply H|]. intros [?|] _; [apply ends_if|]; apply ends_ret. }
  apply ends_if; [|apply ends_ret]. destruct (cbor_int _) as [[? ?]|]; apply ends_ret.
Qed.
Lemma doc_ends : forall l d, short_items l -> ends (doc_loop l d).
Proof.
  fix IH 1. intros [| |k [| |v l]] d H; cbn [doc_loop]; try apply ends_ret.
  - apply ends_bind; [now apply text_ends|]. intros [[? ?]|] _; apply ends_ret.
  - apply ends_bind; [now apply text_ends|]. intros [[? ?]|] _; apply ends_ret.
  - apply ends_bind; [now apply text_ends|]. intros [[? ?]|] _; [|apply ends_ret]. destruct H as [_ H].
    apply ends_bind; [now apply member_ends|]. intros [?|] _; [|apply ends_ret]. apply IH. apply H.
Qed.
Lemma cose_ends w s : (forall i, nw_cbor w s = Some i -> short_item i) -> ends (cose_parse w s).
Proof.
  intros H. unfold cose_parse. destruct (nw_cbor w s) as [[| | | |[n|] l| |]|] eqn:E; try apply ends_ret. specialize (H _ eq_refl). cbn [short_item] in H.
  apply ends_if; [apply ends_ret|]. apply ends_bind; [now apply bytes_ends|]. intros [[h r]|] Eh; [|apply ends_ret]. apply bytes_rest in Eh; [|assumption].
  destruct r as [| |[| | | | |[]|] r]; try apply ends_ret. apply ends_if; [apply ends_ret|]. destruct Eh as [_ Eh].
  apply ends_bind; [now apply bytes_ends|]. intros [[p r1]|] Ep; [|apply ends_ret]. apply bytes_rest in Ep; [|assumption].
  apply ends_bind; [now apply bytes_ends|]. intros [[g r2]|] _; [|apply ends_ret]. apply ends_if; [apply ends_ret|]. apply ends_if; apply ends_ret.
Qed.
Lemma attest_ends w local ev now :
  (forall i, nw_cbor w ev = Some i -> short_item i) ->
  (forall h p g i, is_cose w ev h p g -> nw_cbor w p = Some i -> short_item i) -> ends (nitro_attest w local ev now).
Proof.
  intros H1 H2. apply ends_bind; [now apply cose_ends|]. intros [c|] C; [|apply ends_ret]. apply cose_parse_spec in C as [C _].
  apply ends_bind.
  - unfold doc_parse. destruct (nw_cbor w (cs_payload c)) as [[| | | | |l|]|] eqn:E; try apply ends_ret. apply ends_if; [apply ends_ret|].
    apply ends_bind; [apply doc_ends; exact (H2 _ _ _ _ C E)|]. intros [?|] _; [apply ends_if|]; apply ends_ret.
  - intros [d|] _; [apply ends_if|]; apply ends_ret.
Qed.

(* --- what is signed can be read in one way only --- *)
Lemma be64_len n : length (be64 n) = 8%nat. Proof. reflexivity. Qed.
Lemma be_inj k : forall n m, n < 256 ^ N.of_nat k -> m < 256 ^ N.of_nat k ->
  map (fun i => n / 256 ^ N.of_nat i mod 256) (rev (seq 0 k)) = map (fun i => m / 256 ^ N.of_nat i mod 256) (rev (seq 0 k)) -> n = m.
Proof.
  induction k as [|k IH]; intros n m Hn Hm H; [cbn in *; lia|].
  rewrite seq_S, rev_app_distr in H. cbn [rev app map] in H. injection H as H0 H.
  rewrite Nat2N.inj_succ, N.pow_succ_r' in Hn, Hm. cbn [Nat.add] in H0.
  assert (P : 256 ^ N.of_nat k <> 0) by (apply N.pow_nonzero; lia).
  rewrite (N.mod_small (n / _)), (N.mod_small (m / _)) in H0 by (apply N.div_lt_upper_bound; [assumption|lia]).
  assert (n mod 256 ^ N.of_nat k = m mod 256 ^ N.of_nat k).
  { apply IH; try (apply N.mod_lt; assumption).
    assert (G : forall x, map (fun i => x mod 256 ^ N.of_nat k / 256 ^ N.of_nat i mod 256) (rev (seq 0 k)) = map (fun i => x / 256 ^ N.of_nat i mod 256) (rev (seq 0 k))).
    { intros x. apply map_ext_in. intros i Hi. apply in_rev, in_seq in Hi.
      replace (N.of_nat k) with (N.of_nat i + (N.succ (N.of_nat (k - i - 1)))) by lia.
      rewrite N.pow_add_r. rewrite N.mod_mul_r by (apply N.pow_nonzero; lia).
      rewrite (N.mul_comm (256 ^ N.of_nat i)), N.div_add by (apply N.pow_nonzero; lia).
      rewrite (N.div_small (x mod _)) by (apply N.mod_lt, N.pow_nonzero; lia). rewrite N.add_0_l.
      rewrite N.pow_succ_r', N.mod_mul_r by (try apply N.pow_nonzero; lia).
      rewrite (N.mul_comm 256), N.mod_add by lia. now rewrite N.mod_mod by lia. }
    now rewrite !G. }
  rewrite (N.div_mod n (256 ^ N.of_nat k)), (N.div_mod m (256 ^ N.of_nat k)) by assumption. now rewrite H0, H1.
Qed.
Lemma app_same_length {A} (a b x y : list A) : length a = length b -> a ++ x = b ++ y -> a = b /\ x = y.
Proof.
  revert b. induction a as [|c a IH]; intros [|e b] L E; try discriminate; [now split|]. cbn in L, E. injection E as -> E. destruct (IH b ltac:(lia) E) as [-> ->]. now split.
Qed.
Definition be_bytes (k : nat) (n : N) : bytes := map (fun i => n / 256 ^ N.of_nat i mod 256) (rev (seq 0 k)).
Lemma head_forms major n : n < 2 ^ 64 -> exists t k, head major n = (major * 32 + t) :: be_bytes k n /\
  ((t = n /\ n <= 23 /\ k = 0%nat) \/ (n < 256 ^ N.of_nat k /\ In (t, k) [(24, 1%nat); (25, 2%nat); (26, 4%nat); (27, 8%nat)])).
Proof.
  intros H. unfold head. cbv zeta. fold (be_bytes 1 n) (be_bytes 2 n) (be_bytes 4 n) (be_bytes 8 n).
  destruct (N.leb_spec n 23). { exists n, 0%nat. split; [reflexivity|now left]. }
  destruct (N.leb_spec n 255). { exists 24, 1%nat. split; [reflexivity|right]. split; [cbn; lia|cbn; auto]. }
  destruct (N.leb_spec n 65535). { exists 25, 2%nat. split; [reflexivity|right]. split; [cbn; lia|cbn; auto]. }
  destruct (N.leb_spec n 4294967295). { exists 26, 4%nat. split; [reflexivity|right]. split; [cbn; lia|cbn; auto]. }
  exists 27, 8%nat. split; [reflexivity|right]. split; [exact H|cbn; auto].
Qed.
Lemma head_inj major n m x y : n < 2 ^ 64 -> m < 2 ^ 64 -> head major n ++ x = head major m ++ y -> n = m /\ x = y.
Proof.
  intros Hn Hm. destruct (head_forms major n Hn) as (t & k & -> & Fn). destruct (head_forms major m Hm) as (t' & k' & -> & Fm).
  cbn [app]. intros E. assert (T : t = t') by (injection E; intros _ E'; lia). subst t'. assert (E2 : be_bytes k n ++ x = be_bytes k' m ++ y) by congruence. clear E.
  assert (Len : forall k v, length (be_bytes k v) = k) by (intros; unfold be_bytes; now rewrite map_length, rev_length, seq_length).
  assert (K : k = k').
  { destruct Fn as [(-> & A & ->)|[A I]], Fm as [(B1 & B & ->)|[B J]]; [reflexivity| | |].
    - exfalso. cbn in J. repeat destruct J as [J|J]; try contradiction; inversion J; lia.
    - exfalso. cbn in I. repeat destruct I as [I|I]; try contradiction; inversion I; lia.
    - cbn in I, J. repeat destruct I as [I|I]; try contradiction; inversion I; subst; repeat destruct J as [J|J]; try contradiction; inversion J; reflexivity. }
  subst k'. apply app_same_length in E2 as [B ->]; [|now rewrite !Len]. split; [|reflexivity].
  destruct Fn as [(-> & A & ->)|[A I]], Fm as [(B1 & C & K)|[C J]]; try assumption; try discriminate.
  - cbn in J. repeat destruct J as [J|J]; try contradiction; inversion J.
  - subst k. cbn in I. repeat destruct I as [I|I]; try contradiction; inversion I.
  - now apply (be_inj k).
Qed.
Lemma sig_structure_inj h p h' p' : blen h < 2 ^ 64 -> blen p < 2 ^ 64 -> blen h' < 2 ^ 64 -> blen p' < 2 ^ 64 ->
  sig_structure h p = sig_structure h' p' -> h = h' /\ p = p'.
Proof.
  intros A B C D E. unfold sig_structure in E. do 2 apply app_inv_head in E. rewrite <- !app_assoc in E. apply head_inj in E as [L E]; [|assumption..].
  apply app_same_length in E as [-> E]; [|unfold blen in L; lia]. apply app_inv_head in E. apply head_inj in E as [_ E]; [|assumption..]. now split.
Qed.
