From Verif Require Import Wire UtilProofs.

Lemma varint_aux_read fuel n rest : n < 128 ^ N.of_nat fuel -> (0 < fuel)%nat ->
  read_varint_aux fuel (varint_aux fuel n ++ rest) = Some (n, rest).
Proof.
  revert n; induction fuel as [|f IH]; intros n Hn Hf; [lia|].
  cbn [varint_aux]. destruct (N.ltb_spec n 128) as [H|H].
  - cbn [app read_varint_aux]. now rewrite (proj2 (N.ltb_lt n 128) H).
  - cbn [app read_varint_aux].
    destruct (N.ltb_spec (n mod 128 + 128) 128) as [H1|_]; [lia|].
    destruct f as [|f].
    { change (128 ^ N.of_nat 1) with 128 in Hn; lia. }
    rewrite IH; [f_equal; f_equal; lia| |lia].
    rewrite (Nat2N.inj_succ (S f)), N.pow_succ_r' in Hn.
    set (p := 128 ^ N.of_nat (S f)) in *. apply N.div_lt_upper_bound; lia.
Qed.

Lemma read_varint_ok n rest : n < 2 ^ 64 -> read_varint (varint n ++ rest) = Some (n, rest).
Proof.
  intros H; unfold read_varint, varint. rewrite varint_aux_read.
  - now rewrite N.mod_small.
  - eapply N.lt_trans; [exact H|]. reflexivity.
  - lia.
Qed.

Lemma varint_small n : n < 128 -> varint n = [n].
Proof. intros H; unfold varint; cbn [varint_aux]; now rewrite (proj2 (N.ltb_lt n 128) H). Qed.

Lemma varint_nonempty n : exists b r, varint n = b :: r.
Proof. unfold varint; cbn [varint_aux]; destruct (n <? 128); eauto. Qed.

Lemma varint_length1 n : n < 128 -> length (varint n) = 1%nat.
Proof. intros H; now rewrite varint_small. Qed.
Lemma varint_length2 n : 128 <= n < 16384 -> length (varint n) = 2%nat.
Proof.
  intros H; unfold varint; cbn [varint_aux].
  destruct (N.ltb_spec n 128); [lia|]. destruct (N.ltb_spec (n / 128) 128); [reflexivity|lia].
Qed.
Lemma varint_length_le2 n : n < 16384 -> (1 <= length (varint n) <= 2)%nat.
Proof.
  intros H; destruct (N.ltb_spec n 128).
  - rewrite varint_length1 by lia; lia.
  - rewrite varint_length2 by lia; lia.
Qed.

Lemma le64_from_ok n rest : n < 2 ^ 64 -> le64_from (le64 n ++ rest) = Some (n, rest).
Proof.
  intros H; unfold le64, le64_from; cbn [app].
  pose proof (be64_roundtrip n [] H) as E. unfold be64 in E; rewrite app_nil_r in E.
  now rewrite E.
Qed.

Definition field_ok (fv : field) : Prop :=
  1 <= fst fv < 2 ^ 29 /\
  match snd fv with
  | WVar n | W64 n => n < 2 ^ 64
  | WBytes b => blen b < 2 ^ 64
  | W32 b => length b = 4%nat
  end.

Lemma ser_field_nonempty fv : (0 < length (ser_field fv))%nat.
Proof.
  destruct fv as [f v]; unfold ser_field.
  destruct v; rewrite app_length;
  match goal with |- context[varint ?x] => destruct (varint_nonempty x) as [b0 [r0 ->]] end;
  cbn; lia.
Qed.

Lemma parse_step fv s fuel : field_ok fv ->
  parse_aux (S fuel) (ser_field fv ++ s) =
  match parse_aux fuel s with Some l => Some (fv :: l) | None => None end.
Proof.
  intros [Hf Hv]; destruct fv as [f v]; cbn [fst snd] in *.
  assert (P29 : 2 ^ 29 = 536870912) by reflexivity.
  assert (P64 : 2 ^ 64 = 18446744073709551616) by reflexivity.
  assert (K : forall wt r, wt < 8 ->
     parse_aux (S fuel) (varint (f * 8 + wt) ++ r) =
     match read_val wt r with
     | None => None
     | Some (v, r') => match parse_aux fuel r' with Some l => Some ((f, v) :: l) | None => None end
     end).
  { intros wt r Hwt. cbn [parse_aux].
    destruct (varint_nonempty (f * 8 + wt)) as [b [r0 E]].
    replace (match varint (f * 8 + wt) ++ r with [] => Some [] | _ :: _ => _ end)
      with (match read_varint (varint (f * 8 + wt) ++ r) with
        | Some (tag, r1) =>
            if tag / 8 =? 0 then None else
            match read_val (tag mod 8) r1 with
            | None => None
            | Some (v, r') =>
                match parse_aux fuel r' with
                | None => None
                | Some l => Some ((tag / 8, v) :: l)
                end
            end
        | None => None end) by (rewrite E; reflexivity).
    rewrite read_varint_ok by lia.
    replace ((f * 8 + wt) / 8) with f by lia.
    replace ((f * 8 + wt) mod 8) with wt by lia.
    destruct (N.eqb_spec f 0); [lia|reflexivity]. }
  unfold ser_field; destruct v as [n|n|b|b].
  - rewrite <- app_assoc, <- (N.add_0_r (f * 8)), K by lia. unfold read_val; cbn [N.eqb Pos.eqb].
    rewrite read_varint_ok by lia. reflexivity.
  - rewrite <- app_assoc, K by lia. unfold read_val; cbn [N.eqb Pos.eqb].
    rewrite le64_from_ok by lia. reflexivity.
  - rewrite <- !app_assoc, K by lia. unfold read_val; cbn [N.eqb Pos.eqb].
    rewrite read_varint_ok by lia.
    assert (E : blen (b ++ s) <? blen b = false).
    { apply N.ltb_ge; unfold blen; rewrite app_length; lia. }
    rewrite E. unfold blen; rewrite Nat2N.id, firstn_app, firstn_all, Nat.sub_diag, firstn_O, app_nil_r.
    rewrite skipn_app, skipn_all, Nat.sub_diag; reflexivity.
  - rewrite <- app_assoc, K by lia. unfold read_val; cbn [N.eqb Pos.eqb].
    assert (E : Nat.ltb (length (b ++ s)) 4 = false).
    { apply Nat.ltb_ge; rewrite app_length; lia. }
    rewrite E. rewrite <- Hv, firstn_app, firstn_all, Nat.sub_diag, firstn_O, app_nil_r.
    rewrite skipn_app, skipn_all, Nat.sub_diag; reflexivity.
Qed.

Lemma parse_aux_ser l fuel : Forall field_ok l -> (length (ser_msg l) <= fuel)%nat ->
  parse_aux fuel (ser_msg l) = Some l.
Proof.
  revert fuel; induction l as [|fv l IH]; intros fuel HF Hle.
  - destruct fuel; reflexivity.
  - inversion HF as [|? ? H1 H2]; subst. cbn [ser_msg flat_map] in *. fold (ser_msg l) in *.
    rewrite app_length in Hle. pose proof (ser_field_nonempty fv).
    destruct fuel as [|fuel]; [lia|]. rewrite parse_step by exact H1.
    rewrite IH; [reflexivity|exact H2|lia].
Qed.

Lemma parse_ser l : Forall field_ok l -> parse_msg (ser_msg l) = Some l.
Proof. intros H; unfold parse_msg; now apply parse_aux_ser. Qed.

Lemma get_bytes_app f l1 l2 d : get_bytes f (l1 ++ l2) d = get_bytes f l2 (get_bytes f l1 d).
Proof. revert d; induction l1 as [|[g [n|n|b|b]] l1 IH]; intros d; cbn; auto. Qed.
Lemma get_var_app f l1 l2 d : get_var f (l1 ++ l2) d = get_var f l2 (get_var f l1 d).
Proof. revert d; induction l1 as [|[g [n|n|b|b]] l1 IH]; intros d; cbn; auto. Qed.
Lemma get_64_app f l1 l2 d : get_64 f (l1 ++ l2) d = get_64 f l2 (get_64 f l1 d).
Proof. revert d; induction l1 as [|[g [n|n|b|b]] l1 IH]; intros d; cbn; auto. Qed.

Lemma get_bytes_ob f g b d :
  get_bytes f (opt_bytes g b) d = if g =? f then match b with [] => d | _ => b end else d.
Proof. destruct b; cbn; destruct (g =? f); reflexivity. Qed.
Lemma get_bytes_ov f g n d : get_bytes f (opt_var g n) d = d.
Proof. unfold opt_var; destruct (n =? 0); reflexivity. Qed.
Lemma get_bytes_o64 f g n d : get_bytes f (opt_64 g n) d = d.
Proof. unfold opt_64; destruct (n =? 0); reflexivity. Qed.
Lemma get_var_ob f g b d : get_var f (opt_bytes g b) d = d.
Proof. destruct b; reflexivity. Qed.
Lemma get_var_ov f g n d : get_var f (opt_var g n) d = if g =? f then (if n =? 0 then d else n) else d.
Proof. unfold opt_var; destruct (n =? 0); cbn; destruct (g =? f); reflexivity. Qed.
Lemma get_var_o64 f g n d : get_var f (opt_64 g n) d = d.
Proof. unfold opt_64; destruct (n =? 0); reflexivity. Qed.
Lemma get_64_ob f g b d : get_64 f (opt_bytes g b) d = d.
Proof. destruct b; reflexivity. Qed.
Lemma get_64_ov f g n d : get_64 f (opt_var g n) d = d.
Proof. unfold opt_var; destruct (n =? 0); reflexivity. Qed.
Lemma get_64_o64 f g n d : get_64 f (opt_64 g n) d = if g =? f then (if n =? 0 then d else n) else d.
Proof. unfold opt_64; destruct (n =? 0); cbn; destruct (g =? f); reflexivity. Qed.

Ltac wire_get :=
  repeat rewrite ?get_bytes_app, ?get_var_app, ?get_64_app, ?get_bytes_ob, ?get_bytes_ov,
    ?get_bytes_o64, ?get_var_ob, ?get_var_ov, ?get_var_o64, ?get_64_ob, ?get_64_ov, ?get_64_o64;
  cbn [N.eqb Pos.eqb].

Lemma ob_ok f b : 1 <= f < 2 ^ 29 -> blen b < 2 ^ 64 -> Forall field_ok (opt_bytes f b).
Proof. intros; destruct b; repeat constructor; cbn; auto; tauto. Qed.
Lemma ov_ok f n : 1 <= f < 2 ^ 29 -> n < 2 ^ 64 -> Forall field_ok (opt_var f n).
Proof. intros; unfold opt_var; destruct (n =? 0); repeat constructor; cbn; auto; tauto. Qed.
Lemma o64_ok f n : 1 <= f < 2 ^ 29 -> n < 2 ^ 64 -> Forall field_ok (opt_64 f n).
Proof. intros; unfold opt_64; destruct (n =? 0); repeat constructor; cbn; auto; tauto. Qed.

Lemma ser_msg_app a b : ser_msg (a ++ b) = ser_msg a ++ ser_msg b.
Proof. unfold ser_msg; apply flat_map_app. Qed.
Lemma ser_ob_length f b : 1 <= f < 16 -> (0 < length b < 128)%nat ->
  length (ser_msg (opt_bytes f b)) = (2 + length b)%nat.
Proof.
  intros Hf Hb; destruct b as [|x b]; [cbn in Hb; lia|]. cbn [opt_bytes ser_msg flat_map ser_field].
  rewrite app_nil_r, !app_length, !varint_length1 by (unfold blen; lia). reflexivity.
Qed.
Lemma ser_ov_length1 f n : 1 <= f < 16 -> 0 < n < 128 -> length (ser_msg (opt_var f n)) = 2%nat.
Proof.
  intros Hf Hn; unfold opt_var; destruct (N.eqb_spec n 0); [lia|].
  cbn [ser_msg flat_map ser_field]. now rewrite app_nil_r, app_length, !varint_length1 by lia.
Qed.
Lemma ser_ov_length2 f n : 1 <= f < 16 -> 128 <= n < 16384 -> length (ser_msg (opt_var f n)) = 3%nat.
Proof.
  intros Hf Hn; unfold opt_var; destruct (N.eqb_spec n 0); [lia|].
  cbn [ser_msg flat_map ser_field]. now rewrite app_nil_r, app_length, varint_length1, varint_length2 by lia.
Qed.
Lemma ser_o64_length f n : 1 <= f < 15 -> (length (ser_msg (opt_64 f n)) <= 9)%nat.
Proof.
  intros Hf; unfold opt_64; destruct (N.eqb_spec n 0); [cbn; lia|].
  cbn [ser_msg flat_map ser_field]. rewrite app_nil_r, app_length, varint_length1 by lia. cbn; lia.
Qed.
