(* std::map<std::array<uint8_t,16>, V>: an association list with strictly
   increasing keys, so that iteration order, upper_bound and rbegin are
   those of the C++ container. *)
From Verif Require Export Base.

Section SMap.
Context {V : Type}.

Definition smap := list (bytes * V).

(* rows_.lookup(k) *)
Fixpoint lookup (k : bytes) (m : smap) : option V :=
  match m with
  | [] => None
  | (k', v) :: m' => if beq k k' then Some v else lookup k m'
  end.

(* rows_[k] = v / emplace+assign: keeps the list sorted. *)
Fixpoint put (k : bytes) (v : V) (m : smap) : smap :=
  match m with
  | [] => [(k, v)]
  | (k', v') :: m' =>
      match bcmp k k' with
      | Lt => (k, v) :: (k', v') :: m'
      | Eq => (k, v) :: m'
      | Gt => (k', v') :: put k v m'
      end
  end.

(* rows_.erase(k) *)
Fixpoint del (k : bytes) (m : smap) : smap :=
  match m with
  | [] => []
  | (k', v') :: m' => if beq k k' then m' else (k', v') :: del k m'
  end.

(* the range [rows_.upper_bound(k), rows_.end()) *)
Fixpoint above (k : bytes) (m : smap) : smap :=
  match m with
  | [] => []
  | (k', v') :: m' => if blt k k' then (k', v') :: m' else above k m'
  end.

(* rows_.rbegin()->first *)
Fixpoint last_key (m : smap) : option bytes :=
  match m with
  | [] => None
  | [(k, _)] => Some k
  | _ :: m' => last_key m'
  end.

(* Every key of the map is above k. *)
Fixpoint all_above (k : bytes) (m : smap) : Prop :=
  match m with
  | [] => True
  | (k', _) :: m' => blt k k' = true /\ all_above k m'
  end.

Fixpoint sorted (m : smap) : Prop :=
  match m with
  | [] => True
  | (k, _) :: m' => all_above k m' /\ sorted m'
  end.

Lemma all_above_trans j k m : blt j k = true -> all_above k m -> all_above j m.
Proof.
  intros Hjk; induction m as [|[k' v'] m IH]; cbn; [auto|].
  intros [H1 H2]; split; [eapply blt_trans; eauto | auto].
Qed.

Lemma all_above_lookup k m : all_above k m -> lookup k m = None.
Proof.
  induction m as [|[k' v'] m IH]; cbn; [auto|].
  intros [H1 H2]; destruct (beq_spec k k') as [->|]; [rewrite blt_irrefl in H1; discriminate|auto].
Qed.

Lemma all_above_iff k m : all_above k m <-> (forall k' v, In (k', v) m -> blt k k' = true).
Proof.
  induction m as [|[k' v'] m IH]; cbn; [firstorder|].
  split.
  - intros [H1 H2] k2 v2 [E|E]; [injection E as -> ->; auto | eapply IH; eauto].
  - intros H; split; [apply (H k' v'); now left | apply IH; intros; apply (H k'0 v); now right].
Qed.

Lemma lookup_put_same k v m : lookup k (put k v m) = Some v.
Proof.
  induction m as [|[k' v'] m IH]; cbn; [now rewrite beq_refl|].
  destruct (bcmp k k') eqn:E; cbn; rewrite ?beq_refl; auto.
  destruct (beq_spec k k') as [->|]; [rewrite bcmp_refl in E; discriminate|auto].
Qed.

Lemma lookup_put_other k k2 v m : k2 <> k -> lookup k2 (put k v m) = lookup k2 m.
Proof.
  intros Hne; induction m as [|[k' v'] m IH]; cbn.
  - destruct (beq_spec k2 k); [contradiction|reflexivity].
  - destruct (bcmp k k') eqn:E; cbn.
    + apply bcmp_eq in E; subst k'.
      destruct (beq_spec k2 k); [contradiction|reflexivity].
    + destruct (beq_spec k2 k); [contradiction|reflexivity].
    + now rewrite IH.
Qed.

Lemma lookup_del_other k k2 m : k2 <> k -> lookup k2 (del k m) = lookup k2 m.
Proof.
  intros Hne; induction m as [|[k' v'] m IH]; cbn; [reflexivity|].
  destruct (beq_spec k k') as [->|]; cbn.
  - destruct (beq_spec k2 k'); [contradiction|reflexivity].
  - now rewrite IH.
Qed.

Lemma lookup_del_same k m : sorted m -> lookup k (del k m) = None.
Proof.
  induction m as [|[k' v'] m IH]; cbn; [auto|].
  intros [H1 H2]; destruct (beq_spec k k') as [->|Hne].
  - now apply all_above_lookup.
  - cbn; destruct (beq_spec k k'); [contradiction|auto].
Qed.

Lemma all_above_put j k v m : blt j k = true -> all_above j m -> all_above j (put k v m).
Proof.
  intros Hjk; induction m as [|[k' v'] m IH]; cbn; [auto|].
  intros [H1 H2]; destruct (bcmp k k'); cbn; auto.
Qed.

Lemma all_above_del j k m : all_above j m -> all_above j (del k m).
Proof.
  induction m as [|[k' v'] m IH]; cbn; [auto|].
  intros [H1 H2]; destruct (beq k k'); cbn; auto.
Qed.

Lemma sorted_put k v m : sorted m -> sorted (put k v m).
Proof.
  induction m as [|[k' v'] m IH]; cbn; [auto|].
  intros [H1 H2]; destruct (bcmp k k') eqn:E; cbn.
  - apply bcmp_eq in E; subst; auto.
  - split; [|auto]. split; [now apply blt_lt|].
    apply all_above_trans with (k := k'); [now apply blt_lt|auto].
  - split; [|auto].
    apply all_above_put; [|auto].
    apply blt_lt; rewrite bcmp_antisym, E; reflexivity.
Qed.

Lemma sorted_del k m : sorted m -> sorted (del k m).
Proof.
  induction m as [|[k' v'] m IH]; cbn; [auto|].
  intros [H1 H2]; destruct (beq k k'); cbn; auto using all_above_del.
Qed.

Lemma lookup_in k v m : lookup k m = Some v -> In (k, v) m.
Proof.
  induction m as [|[k' v'] m IH]; cbn; [discriminate|].
  destruct (beq_spec k k') as [->|]; [intros E; injection E as ->; auto | auto].
Qed.

Lemma in_lookup k v m : sorted m -> In (k, v) m -> lookup k m = Some v.
Proof.
  induction m as [|[k' v'] m IH]; cbn; [contradiction|].
  intros [H1 H2] [E|E].
  - injection E as -> ->; now rewrite beq_refl.
  - destruct (beq_spec k k') as [->|]; [|auto].
    apply (proj1 (all_above_iff _ _)) with (k':=k') (v:=v) in H1; [|exact E].
    rewrite blt_irrefl in H1; discriminate.
Qed.

(* A sorted map is determined by its lookups. *)
Lemma smap_ext m1 m2 : sorted m1 -> sorted m2 ->
  (forall k, lookup k m1 = lookup k m2) -> m1 = m2.
Proof.
  revert m2; induction m1 as [|[k1 v1] m1 IH]; intros [|[k2 v2] m2] S1 S2 H.
  - reflexivity.
  - specialize (H k2); cbn in H; rewrite beq_refl in H; discriminate.
  - specialize (H k1); cbn in H; rewrite beq_refl in H; discriminate.
  - destruct S1 as [A1 S1], S2 as [A2 S2].
    assert (k1 = k2) as ->.
    { destruct (bcmp k1 k2) eqn:E.
      - now apply bcmp_eq.
      - exfalso. pose proof (H k1) as Hk; cbn in Hk; rewrite beq_refl in Hk.
        destruct (beq_spec k1 k2) as [->|Hne]; [rewrite bcmp_refl in E; discriminate|].
        symmetry in Hk; apply lookup_in in Hk.
        apply (proj1 (all_above_iff _ _)) with (k':=k1) (v:=v1) in A2; [|exact Hk].
        apply blt_lt in E; apply blt_asym in E; congruence.
      - exfalso. pose proof (H k2) as Hk; cbn in Hk; rewrite beq_refl in Hk.
        destruct (beq_spec k2 k1) as [->|Hne]; [rewrite bcmp_refl in E; discriminate|].
        apply lookup_in in Hk.
        apply (proj1 (all_above_iff _ _)) with (k':=k2) (v:=v2) in A1; [|exact Hk].
        apply blt_lt in A1; congruence. }
    assert (v1 = v2) as ->.
    { specialize (H k2); cbn in H; rewrite beq_refl in H; congruence. }
    f_equal; apply IH; auto.
    intros k; pose proof (H k) as Hk; cbn in Hk.
    destruct (beq_spec k k2) as [Heq|]; [|exact Hk].
    rewrite Heq; now rewrite !all_above_lookup.
Qed.

Lemma put_above_last k v m :
  (forall k' v', In (k', v') m -> blt k' k = true) -> put k v m = m ++ [(k, v)].
Proof.
  induction m as [|[k' v'] m IH]; cbn; intros H; [reflexivity|].
  assert (Hk : blt k' k = true) by (apply (H k' v'); now left).
  apply blt_lt in Hk; rewrite bcmp_antisym, Hk; cbn.
  f_equal; apply IH; intros; eapply H; right; eauto.
Qed.

Lemma last_key_app m k v : last_key (m ++ [(k, v)]) = Some k.
Proof.
  induction m as [|[k' v'] m IH]; cbn; [reflexivity|].
  destruct (m ++ [(k, v)]) eqn:E; [destruct m; discriminate|exact IH].
Qed.

Lemma last_key_max m k : sorted m -> last_key m = Some k ->
  forall k' v', In (k', v') m -> k' = k \/ blt k' k = true.
Proof.
  induction m as [|[k1 v1] m IH]; cbn; [discriminate|].
  intros [A S] H k' v' [E|E].
  - injection E as -> ->. destruct m as [|[k2 v2] m]; [left; congruence|].
    right. destruct (IH S H k2 v2) as [->|Hlt]; [now left| |].
    + cbn in A; apply A.
    + cbn in A; eapply blt_trans; [apply A|exact Hlt].
  - destruct m as [|p m]; [contradiction|]. eapply IH; eauto.
Qed.

Lemma last_key_none m : last_key m = None -> m = [].
Proof.
  induction m as [|[k1 v1] m IH]; cbn; [auto|].
  destruct m; [discriminate|]; intros H; specialize (IH H); discriminate.
Qed.

Lemma last_key_in m k : last_key m = Some k -> exists v, In (k, v) m.
Proof.
  induction m as [|[k1 v1] m IH]; [discriminate|].
  destruct m as [|p m]; intros H.
  - injection H as ->; exists v1; now left.
  - destruct (IH H) as [v Hv]; exists v; now right.
Qed.

(* [above k] splits a sorted map in two. *)
Lemma above_split k m : sorted m ->
  exists lo, m = lo ++ above k m /\ (forall k' v', In (k', v') lo -> blt k k' = false)
             /\ all_above k (above k m).
Proof.
  induction m as [|[k1 v1] m IH]; cbn; [exists []; repeat split; auto; intros; contradiction|].
  intros [A S]; destruct (blt k k1) eqn:E.
  - exists []; cbn; repeat split; auto; [intros; contradiction|].
    eapply all_above_trans; eauto.
  - destruct (IH S) as [lo [H1 [H2 H3]]]; exists ((k1, v1) :: lo); cbn; repeat split; auto.
    + now rewrite <- H1.
    + intros k' v' [Ee|Ee]; [injection Ee as <- <-; exact E | eapply H2; eauto].
Qed.

Lemma sorted_app m1 m2 : sorted (m1 ++ m2) <->
  sorted m1 /\ sorted m2 /\ (forall k v, In (k, v) m1 -> all_above k m2).
Proof.
  induction m1 as [|[k v] m1 IH]; cbn.
  - split; [intros H; repeat split; auto; intros; contradiction | tauto].
  - rewrite IH. split.
    + intros [A [S1 [S2 H]]]; repeat split; auto.
      * apply all_above_iff; intros k' v' Hin.
        eapply (proj1 (all_above_iff _ _)); [exact A|]; apply in_or_app; eauto.
      * intros k' v' [E|E]; [injection E as <- <-|eapply H; eauto].
        apply all_above_iff; intros k2 v2 Hin.
        eapply (proj1 (all_above_iff _ _)); [exact A|]; apply in_or_app; eauto.
    + intros [[A S1] [S2 H]]; repeat split; auto.
      * apply all_above_iff; intros k' v' Hin; apply in_app_or in Hin as [Hin|Hin].
        -- eapply (proj1 (all_above_iff _ _)); eauto.
        -- eapply (proj1 (all_above_iff _ _)); [apply (H k v); now left|eauto].
      * intros; eapply H; right; eauto.
Qed.

Lemma above_last m1 m2 k v : sorted (m1 ++ [(k, v)] ++ m2) ->
  above k (m1 ++ [(k, v)] ++ m2) = m2.
Proof.
  induction m1 as [|[k1 v1] m1 IH]; intros HS.
  - cbn in *. rewrite blt_irrefl. destruct HS as [A S].
    destruct m2 as [|[k2 v2] m2]; cbn; [reflexivity|].
    cbn in A; destruct A as [-> _]; reflexivity.
  - cbn in *. destruct HS as [A S].
    assert (Hlt : blt k1 k = true).
    { eapply (proj1 (all_above_iff _ _)); [exact A|].
      apply in_or_app; right; cbn; now left. }
    rewrite (blt_asym _ _ Hlt); apply IH; exact S.
Qed.

Lemma del_absent k m : lookup k m = None -> del k m = m.
Proof.
  induction m as [|[k' v'] m IH]; cbn; [auto|].
  destruct (beq k k'); [discriminate|]; intros H; now rewrite IH.
Qed.

Lemma put_same k v m : sorted m -> lookup k m = Some v -> put k v m = m.
Proof.
  intros S H; apply smap_ext; auto using sorted_put.
  intros k'; destruct (beq_spec k' k) as [->|Hne].
  - now rewrite lookup_put_same.
  - now rewrite lookup_put_other.
Qed.

End SMap.

Arguments smap : clear implicits.
