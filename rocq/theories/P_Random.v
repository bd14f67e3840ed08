(* C91: random bytes are the source's bytes, all of them, or the caller is
   told. *)
From Verif Require Import Base Util Random RandomSpec RandomProofs.
Open Scope nat_scope.

(* A call that returns OK has put the source's first bytes, in order and each
   once, into the whole buffer; it returns an error only if its source failed;
   in each case it has touched nothing else, and it never breaks.  Except for
   the simulated Nitro environment. *)
Theorem C91_all_random_or_error_partial e mem pos size :
  not_simulated_nitro e -> 0 < size -> pos + size <= length mem ->
  match random_bytes e mem pos size with
  | Done true mem' =>
      only_within pos size mem mem' /\ at_ pos size mem' = firstn size (source e) /\
      size <= length (source e)
  | Done false mem' => only_within pos size mem mem' /\ source_fails e
  | Waiting mem' => only_within pos size mem mem'
  | Broken => False
  end.
Proof.
  intros He Hz L. pose proof (random_fine e mem pos size He Hz L) as F.
  destruct (random_bytes e mem pos size) as [[|] m|m|]; cbn in F; [| | |exact F].
  - destruct F as [A ->].
    assert (L1 : length (firstn pos mem) = pos) by (rewrite firstn_length; lia).
    assert (L2 : length (firstn size (source e)) = size) by (rewrite firstn_length; lia).
    repeat split; auto.
    + rewrite !app_length, skipn_length, L1, L2. lia.
    + rewrite firstn_app, L1, Nat.sub_diag, firstn_O, app_nil_r, firstn_firstn.
      now rewrite Nat.min_id.
    + rewrite app_assoc, skipn_app_ge by (rewrite app_length; lia).
      rewrite app_length, L1, L2. now rewrite Nat.sub_diag.
    + unfold at_. rewrite skipn_app_ge by lia. rewrite L1, Nat.sub_diag, skipn_O.
      rewrite firstn_app, L2, Nat.sub_diag, firstn_O, app_nil_r, firstn_firstn.
      now rewrite Nat.min_id.
  - tauto.
  - tauto.
Qed.

(* And it does return OK once its source has handed out enough. *)
Theorem C91_enough_is_enough_partial e mem pos size :
  not_simulated_nitro e -> 0 < size -> pos + size <= length mem ->
  size <= length (source e) ->
  exists mem', random_bytes e mem pos size = Done true mem'.
Proof.
  intros He Hz L Hs. pose proof (random_fine e mem pos size He Hz L) as F.
  destruct (random_bytes e mem pos size) as [[|] m|m|]; cbn in F; [eauto|lia|lia|contradiction].
Qed.

(* Who asks, for how many bytes, and looks at the result: the id of a new
   group, the name of a temporary directory, the key of a hasher, and what the
   cryptographic libraries draw. *)
Definition looks (draw : then_do) (e : env) (n : nat) : Prop :=
  exists junk, (draw = new_group_id e junk /\ n = 8) \/ (draw = tmp_name e junk /\ n = 8) \/
    (draw = hasher_key e junk /\ n = 16) \/ (draw = library_bytes e junk /\ n = length junk).

(* They go on only with bytes of the source, as many as they asked for. *)
Theorem C91_goes_on_with_random_partial draw e n bs :
  looks draw e n -> not_simulated_nitro e -> 0 < n ->
  draw = Uses bs -> length bs = n /\ bs = firstn n (source e).
Proof.
  intros [junk Hd] He Hn H.
  assert (G : forall j, length j = n -> (draw_checked e j = Uses bs \/ draw_reported e j = Uses bs) ->
              length bs = n /\ bs = firstn n (source e)).
  { intros j Hl [E|E]; [unfold draw_checked in E|unfold draw_reported in E];
      destruct (random_bytes e j 0 (length j)) as [[|] m|m|] eqn:R; try discriminate;
      injection E as ->; apply whole in R; try lia; auto; cbn in R; destruct R as [A B];
      rewrite skipn_all, app_nil_r, Hl in B;
      (split; [rewrite B, firstn_length; lia|exact B]). }
  assert (K : forall k, length (firstn k (junk ++ repeat 0%N k)) = k).
  { intros k. rewrite firstn_length, app_length, repeat_length. lia. }
  destruct Hd as [[-> ->]|[[-> ->]|[[-> ->]|[-> ->]]]].
  - apply (G _ (K 8)). now right.
  - apply (G _ (K 8)). now right.
  - apply (G _ (K 16)). now left.
  - apply (G junk eq_refl). now left.
Qed.

(* The tree's key and the replication's id are used whatever happened: when
   the source fails at once, they are what happened to be in memory. *)
Theorem C91_unlooked_refuted e junk :
  e = Sgx Failed \/ (exists l, e = SocketSim (Failed :: l)) \/
  (exists l, e = SocketCpu (None :: l)) \/ (exists l, e = NsmChip (Failed :: l)) ->
  (length junk = 16 -> merkle_key e junk = Uses junk) /\
  (length junk = 8 -> replication_id e junk = Uses junk).
Proof.
  intros He.
  assert (T : forall n, length junk = n -> firstn n (junk ++ repeat 0%N n) = junk).
  { intros n <-. rewrite firstn_app, Nat.sub_diag, firstn_O, app_nil_r. apply firstn_all. }
  assert (D : 0 < length junk -> draw_unchecked e junk = Uses junk).
  { intros Hl. unfold draw_unchecked.
    destruct He as [->|[[l ->]|[[l ->]|[l ->]]]]; cbn; unfold pull_sgx;
      (destruct (Nat.eqb_spec (length junk) 0); [lia|reflexivity]). }
  split; intros E; unfold merkle_key, replication_id; rewrite (T _ E); apply D; lia.
Qed.

(* The simulated Nitro environment: OK, although the end of the buffer was
   never written - the source gave its bytes in two parts, and the second went
   over the first. *)
Theorem C91_simulated_nitro_refuted :
  exists e mem mem', e = NsmSim [Gave [1; 2; 3; 4; 5]%N; Gave [6; 7; 8]%N] /\ length mem = 8 /\
    random_bytes e mem 0 8 = Done true mem' /\
    at_ 5 3 mem' = at_ 5 3 mem /\ at_ 0 8 mem' <> firstn 8 (source e).
Proof.
  exists (NsmSim [Gave [1; 2; 3; 4; 5]%N; Gave [6; 7; 8]%N]), (repeat 9%N 8). eexists.
  split; [reflexivity|]. split; [reflexivity|]. split; [vm_compute; reflexivity|].
  split; [reflexivity|]. vm_compute. discriminate.
Qed.

(* And a failure of its source is not seen: it asks again, for one byte more
   than there is room for, and writes behind the buffer. *)
Theorem C91_simulated_nitro_overruns_refuted :
  exists e mem mem', e = NsmSim [Failed; Gave (repeat 7%N 9)] /\
    random_bytes e mem 0 8 = Done true mem' /\ ~ only_within 0 8 mem mem'.
Proof.
  exists (NsmSim [Failed; Gave (repeat 7%N 9)]), (repeat 0%N 12). eexists.
  split; [reflexivity|]. split; [vm_compute; reflexivity|]. intros [_ [_ H]]. vm_compute in H. discriminate.
Qed.

(* Every failure lets that overrun grow by one: after [n] failures in a row it
   asks for, and takes, [n] bytes more. *)
Theorem C91_simulated_nitro_overruns_by_failures_refuted n bs pre buf post :
  (0 < length buf)%nat -> (N.of_nat (length buf + n) < 2 ^ 64)%N ->
  length bs = length buf + n -> length post >= n ->
  random_bytes (NsmSim (repeat Failed n ++ [Gave bs])) (pre ++ buf ++ post) (length pre) (length buf) =
  Done true (pre ++ bs ++ skipn n post).
Proof.
  intros Hb Hm Hl Hp. cbn [random_bytes].
  assert (G : forall k s, (N.of_nat s <> 0)%N -> s + k = length bs ->
    pull_nsm_sim (repeat Failed k ++ [Gave bs]) (pre ++ buf ++ post) (length pre) (N.of_nat s) =
    Done true (pre ++ bs ++ skipn n post)).
  { induction k as [|k IH]; intros s Hs Hk.
    - cbn [repeat app pull_nsm_sim]. destruct (N.eqb_spec (N.of_nat s) 0) as [?|_]; [lia|].
      unfold blen. destruct (N.leb_spec (N.of_nat (length bs)) (N.of_nat s)) as [_|?]; [|lia].
      cbn zeta. destruct (N.eqb_spec (N.of_nat (length bs)) 0) as [?|_]; [lia|].
      unfold store. rewrite !app_length.
      destruct (Nat.ltb_spec (length pre + (length buf + length post)) (length pre + length bs)) as [?|_]; [lia|].
      replace ((N.of_nat s + 2 ^ 64 - N.of_nat (length bs)) mod 2 ^ 64)%N with 0%N.
      2:{ replace (N.of_nat s + 2 ^ 64 - N.of_nat (length bs))%N with (2 ^ 64)%N by lia. reflexivity. }
      cbn [N.eqb]. f_equal.
      rewrite firstn_app, Nat.sub_diag, firstn_O, app_nil_r, firstn_all. f_equal. f_equal.
      rewrite skipn_app_ge by lia. replace (length pre + length bs - length pre) with (length bs) by lia.
      rewrite skipn_app_ge by lia. f_equal. lia.
    - cbn [repeat app pull_nsm_sim]. destruct (N.eqb_spec (N.of_nat s) 0) as [?|_]; [lia|].
      replace ((N.of_nat s + 2 ^ 64 - (2 ^ 64 - 1)) mod 2 ^ 64)%N with (N.of_nat (s + 1)).
      2:{ replace (N.of_nat s + 2 ^ 64 - (2 ^ 64 - 1))%N with (N.of_nat (s + 1)) by lia.
          symmetry. apply N.mod_small. lia. }
      apply IH; lia. }
  apply G; lia.
Qed.

(* The partial theorems' hypotheses are met: a source that gives its bytes in
   pieces, into the middle of memory; words of the processor; and one that
   fails half-way. *)
Example C91_meets_pieces :
  random_bytes (SocketSim [Gave [1; 2]; Gave []; Gave [3; 4; 5; 6]]%N) (repeat 0%N 7) 1 5 =
  Done true [0; 1; 2; 3; 4; 5; 0]%N.
Proof. reflexivity. Qed.
Example C91_meets_words :
  random_bytes (SocketCpu [Some (2 ^ 56 + 255); Some (2 ^ 57)]%N) (repeat 9%N 12) 1 10 =
  Done true [9; 1; 0; 0; 0; 0; 0; 0; 255; 2; 0; 9]%N.
Proof. reflexivity. Qed.
Example C91_meets_failure :
  random_bytes (NsmChip [Gave [1; 2]; Failed; Gave [3]]%N) (repeat 0%N 4) 0 3 = Done false [1; 2; 0; 0]%N.
Proof. reflexivity. Qed.
Example C91_meets_looks : hasher_key (Sgx (Gave (repeat 5%N 20))) [] = Uses (repeat 5%N 16).
Proof. reflexivity. Qed.

Print Assumptions C91_all_random_or_error_partial.
Print Assumptions C91_enough_is_enough_partial.
Print Assumptions C91_goes_on_with_random_partial.
Print Assumptions C91_unlooked_refuted.
Print Assumptions C91_simulated_nitro_refuted.
Print Assumptions C91_simulated_nitro_overruns_refuted.
Print Assumptions C91_simulated_nitro_overruns_by_failures_refuted.
