(* C38, C56: secure channels.  Vocabulary: NoiseSpec.v. *)
From Verif Require Import Noise NoiseSpec NoiseProofs Hist.

(* noise.cc:11 *)
Definition max_message_size : nat := N.to_nat 65535.
Lemma mms : (MAC < max_message_size)%nat.
Proof. unfold max_message_size, MAC. lia. Qed.
Opaque max_message_size.
(* pieces needed for messages: each takes a nonce *)
Definition nonces_used (ms : list bytes) : N := N.of_nat (length (flat_map (pieces (max_message_size - MAC)) ms)).

(* --- C38: between enclaves -------------------------------------------------- *)
(* what was sent arrives, all of it, in order, of whatever length *)
Theorem C38_honest_delivery :
  forall enc dec ms, aead_correct enc dec -> nonces_used ms < 2 ^ 64 ->
  exists cts s s', exec (peer_send enc max_message_size) (Some new_chan) ms = Ret (s, map Some cts) /\
    exec (peer_recv dec max_message_size) (Some new_chan) cts = Ret (s', map Some ms).
Proof.
  intros enc dec ms [Hl Hd] Hn. destruct (peer_send_all enc (fun _ _ _ _ => None) max_message_size Hl mms ms [] Hn) as [cts [E _]].
  eexists cts, _, _. split; [exact E|]. exact (peer_honest enc dec max_message_size Hl mms Hd ms [] cts _ Hn E).
Qed.
(* the sender makes just the encryptions of NoiseSpec.v, and no nonce serves twice *)
Theorem C38_sender_encryptions :
  forall enc ms, (forall e n ad p, length (enc e n ad p) = (length p + MAC)%nat) -> nonces_used ms < 2 ^ 64 ->
  exists cts s, exec (peer_send enc max_message_size) (Some new_chan) ms = Ret (s, map Some cts) /\
    concat cts = flat_map (fun '(e, n, ad, p) => enc e n ad p) (peer_calls max_message_size ms).
Proof.
  intros enc ms Hl Hn. destruct (peer_send_all enc (fun _ _ _ _ => None) max_message_size Hl mms ms [] Hn) as [cts [E Hc]].
  exists cts. eexists. split; [exact E|]. clear E Hn. unfold peer_calls.
  assert (H : forall ms2 ms1 cts, Forall2 (fun ct cl => ct = concat (seal enc true (fst cl) (pieces (max_message_size - MAC) (snd cl)))) cts
      (map (fun j => (ch_cipher (chan_at max_message_size (ms1 ++ firstn j ms2)), nth j ms2 [])) (seq 0 (length ms2))) ->
    concat cts = flat_map (fun '(e, n, ad, p) => enc e n ad p) (calls_from (max_message_size - MAC) (N.of_nat (length ms1)) (base (max_message_size - MAC) ms1) ms2)).
  { clear. induction ms2 as [|m ms2 IH]; intros ms1 cts H; cbn [length seq map] in H; [inversion H; reflexivity|].
    inversion H as [|ct ? cts' ? Ec H' E1 E2]; subst. cbn [concat calls_from]. rewrite flat_map_app. f_equal.
    - cbn [fst snd firstn nth]. rewrite app_nil_r. unfold chan_at. cbn [ch_cipher]. rewrite seal_calls, flat_map_concat_map. f_equal.
    - rewrite <- seq_shift, map_map in H'.
      rewrite (map_ext _ (fun j => (ch_cipher (chan_at max_message_size ((ms1 ++ [m]) ++ firstn j ms2)), nth j ms2 []))) in H'
        by (intros j; cbn [firstn nth]; now rewrite <- app_assoc).
      apply (IH (ms1 ++ [m])) in H'.
      rewrite H', app_length. unfold base. rewrite flat_map_app, app_length. cbn [length flat_map]. rewrite app_nil_r. f_equal. f_equal; unfold bytes; lia. }
  exact (H ms [] cts Hc).
Qed.
Theorem C38_no_nonce_twice : forall ms, NoDup (map (fun '(_, n, _, _) => n) (peer_calls max_message_size ms)).
Proof.
  intros ms. unfold peer_calls. generalize (max_message_size - MAC)%nat as k. intros k. generalize 0 at 1 as i. generalize 0 as n0.
  assert (Hp : forall ps e n0, NoDup (map (fun '(_, n, _, _) => n) (piece_calls e n0 ps))).
  { induction ps as [|p ps IH]; intros e n0; cbn [piece_calls map]; constructor; auto. intros Hi. apply in_map_iff in Hi as [[[[e' n'] ad'] p'] [<- Hi]].
    apply piece_calls_bounds in Hi. lia. }
  induction ms as [|m ms IH]; intros n0 i; [constructor|]. cbn [calls_from]. rewrite map_app.
  assert (Hd : forall (a b : list N), NoDup a -> NoDup b -> (forall x, In x a -> ~ In x b) -> NoDup (a ++ b)).
  { clear. induction a as [|x a IHa]; intros b Ha Hb Hx; [assumption|]. inversion Ha; subst. cbn. constructor.
    - rewrite in_app_iff. intros [H|H]; [contradiction|]. apply (Hx x); [now left|assumption].
    - apply IHa; auto. intros y Hy. apply Hx. now right. }
  apply Hd; auto. intros x H1 H2. apply in_map_iff in H1 as [[[[e1 n1] a1] p1] [<- H1]]. apply in_map_iff in H2 as [[[[e2 n2] a2] p2] [E2 H2]].
  apply piece_calls_bounds in H1. apply calls_bounds in H2. lia.
Qed.
(* Whatever the network makes of the ciphertexts: the answers are messages sent, from
   the first on without a gap, and after a first error nothing but errors. *)
Definition channel_claim : Prop :=
  forall enc dec ms delivered, aead_correct enc dec ->
  no_forgery enc dec max_message_size (peer_calls max_message_size ms) delivered ->
  exists s rs, exec (peer_recv dec max_message_size) (Some new_chan) delivered = Ret (s, rs) /\ messages_then_errors ms rs.
(* true if the network delivers no empty ciphertexts *)
Theorem C38_tampering_partial :
  forall enc dec ms delivered, aead_correct enc dec -> ~ In [] delivered ->
  no_forgery enc dec max_message_size (peer_calls max_message_size ms) delivered ->
  exists s rs, exec (peer_recv dec max_message_size) (Some new_chan) delivered = Ret (s, rs) /\ messages_then_errors ms rs.
Proof. intros enc dec ms ds [Hl Hd] Hne Hf. exact (peer_recv_all enc dec max_message_size Hl mms ds [] ms Hne Hf). Qed.

(* a stand-in cipher: the tag names key epoch, nonce, associated data and text *)
Definition t_tag (e n : N) (ad p : bytes) : bytes :=
  [e; n; blen ad; match ad with a :: _ => a | [] => 0 end; blen p; fold_right N.add 0 p; 0; 0; 0; 0; 0; 0; 0; 0; 0; 0].
Definition t_enc (e n : N) (ad p : bytes) : bytes := p ++ t_tag e n ad p.
Definition t_dec (e n : N) (ad c : bytes) : option bytes :=
  let p := firstn (length c - MAC) c in
  if (Nat.leb MAC (length c) && beq (skipn (length c - MAC) c) (t_tag e n ad p))%bool then Some p else None.
Lemma t_tag_inj e n ad p e' n' ad' p' : t_tag e n ad p = t_tag e' n' ad' p' -> e = e' /\ n = n' /\ blen ad = blen ad'.
Proof. unfold t_tag. intros H. injection H as -> -> -> _ _ _. auto. Qed.
Lemma t_dec_inv p e n ad q : t_dec e n ad (t_enc 0 0 [] p) = Some q -> q = p /\ e = 0 /\ n = 0 /\ blen ad = 0.
Proof.
  unfold t_dec, t_enc. rewrite app_length. change (length (t_tag 0 0 [] p)) with MAC.
  replace (length p + MAC - MAC)%nat with (length p) by lia. rewrite firstn_app, Nat.sub_diag, firstn_all, firstn_O, app_nil_r.
  rewrite skipn_app, Nat.sub_diag, skipn_all. cbn [app skipn].
  destruct (Nat.leb _ _ && _)%bool eqn:Eb; [|discriminate]. intros H. injection H as <-.
  apply andb_true_iff in Eb as [_ Eb]. apply beq_eq in Eb. apply t_tag_inj in Eb as [<- [<- <-]]. auto.
Qed.
Lemma long_message k : (0 < k)%nat -> exists m p l, length m = S k /\ length p = k /\ pieces k m = p :: l.
Proof.
  intros Hk. exists (repeat 7 (S k)), (firstn k (repeat 7 (S k))), (pieces k (skipn k (repeat 7 (S k)))).
  assert (E : length (repeat 7 (S k)) = S k) by apply repeat_length.
  split; [exact E|]. split; [rewrite firstn_length; lia|]. apply pieces_long; lia.
Qed.
Lemma t_correct : aead_correct t_enc t_dec.
Proof.
  split.
  - intros e n ad p. unfold t_enc. rewrite app_length. reflexivity.
  - intros e n ad p. unfold t_dec, t_enc. rewrite app_length. change (length (t_tag e n ad p)) with MAC.
    replace (length p + MAC - MAC)%nat with (length p) by lia. rewrite firstn_app, Nat.sub_diag, firstn_all, firstn_O, app_nil_r.
    rewrite skipn_app, Nat.sub_diag, skipn_all. cbn [app skipn]. rewrite beq_refl. rewrite (proj2 (Nat.leb_le _ _)) by lia. reflexivity.
Qed.
Theorem C38_injection_refuted : ~ channel_claim.
Proof.
  intros H. destruct (H t_enc t_dec [] [[]] t_correct) as [s [rs [E [k [e Hr]]]]].
  - intros d c [<-|[]] Hc e n ad p Hd. destruct Hc as [<-|[]]. discriminate Hd.
  - cbn [exec peer_recv] in E. rewrite decrypt_nil in E. injection E as _ <-. rewrite firstn_nil in Hr. destruct e; discriminate.
Qed.

(* --- C56: between client and enclave ----------------------------------------- *)
(* The client's connection survives errors, so what is accepted are some of the
   messages sent, in their order, each whole. *)
Definition client_claim : Prop :=
  forall enc dec ms delivered, aead_correct enc dec ->
  no_forgery enc dec max_message_size (client_calls max_message_size ms) (map fst delivered) ->
  exists s rs, exec (client_recv dec max_message_size) (Cipher 0 0) delivered = Ret (s, rs) /\ subseq (successes rs) ms.
(* true for messages that fit into one noise message with room to spare, unless an
   empty ciphertext is delivered *)
Theorem C56_short_requests_partial :
  forall enc dec ms delivered, aead_correct enc dec ->
  Forall (fun m => (length m < max_message_size - MAC)%nat) ms -> ~ In [] (map fst delivered) ->
  no_forgery enc dec max_message_size (client_calls max_message_size ms) (map fst delivered) ->
  exists s rs, exec (client_recv dec max_message_size) (Cipher 0 0) delivered = Ret (s, rs) /\ subseq (successes rs) ms.
Proof.
  intros enc dec ms ds [Hl Hd] Hs Hne Hf. apply (client_recv_all enc dec max_message_size Hl mms ds [] ms); auto; [|cbn; lia].
  replace (client_calls_from 0 ([] ++ ms)) with (client_calls max_message_size ms); [assumption|].
  unfold client_calls. f_equal. cbn [app]. clear -Hs. induction Hs as [|m ms Hm Hs IH]; [reflexivity|]. cbn [flat_map]. rewrite IH.
  rewrite pieces_short by (pose proof mms; lia). reflexivity.
Qed.
(* a longer one can be cut short at a multiple of the maximal size *)
Theorem C56_truncation_refuted : ~ client_claim.
Proof.
  intros H. pose proof mms as HM. destruct t_correct as [Hl Hd].
  assert (HK : (0 < max_message_size - MAC)%nat) by lia.
  destruct (long_message (max_message_size - MAC) HK) as [m [p [l [Hm [Hp Hpm]]]]].
  assert (Hne : t_enc 0 0 [] p <> []) by (intros E; apply (f_equal (@length N)) in E; rewrite Hl in E; cbn [length] in E; lia).
  assert (Hpc : pieces max_message_size (t_enc 0 0 [] p) = [t_enc 0 0 [] p]) by (apply pieces_short; [lia|rewrite Hl; lia]).
  destruct (H t_enc t_dec [m] [(t_enc 0 0 [] p, 0)] t_correct) as [s [rs [E Hs]]].
  - intros d c' [<-|[]] Hi e n ad q Hq. cbn [fst] in Hi. rewrite Hpc in Hi. destruct Hi as [<-|[]].
    apply t_dec_inv in Hq as [-> [-> [-> Had]]]. destruct ad; [|discriminate].
    split; [|reflexivity]. unfold client_calls. cbn [flat_map]. rewrite app_nil_r, Hpm. now left.
  - rewrite (client_recv_single t_enc t_dec max_message_size Hl mms Hd p 0 Hp) in E. injection E as _ <-. cbn [successes flat_map app] in Hs.
    assert (Hx : p <> m) by (intros Ex; apply (f_equal (@length N)) in Ex; lia).
    inversion Hs as [|x a b Hs'|x a b Hs']; subst; [congruence|inversion Hs'].
Qed.

(* two messages, the second one altered on the way *)
Definition x_sent : list bytes := [[1; 2; 3]; []].
Definition x_delivered : list bytes := [t_enc 0 0 [1] [1; 2; 3]; 9 :: t_enc 0 1 [1] []].
Example x_channel : aead_correct t_enc t_dec /\ ~ In [] x_delivered /\
  no_forgery t_enc t_dec max_message_size (peer_calls max_message_size x_sent) x_delivered /\ nonces_used x_sent < 2 ^ 64.
Proof.
  pose proof mms as HM. Transparent max_message_size. assert (HB : (60 < max_message_size - MAC)%nat) by (unfold max_message_size, MAC; lia). Opaque max_message_size.
  assert (Hs : forall b, (length b <= 60)%nat -> pieces (max_message_size - MAC) b = [b]) by (intros b Hb; apply pieces_short; lia).
  assert (Hs2 : forall b, (length b <= 60)%nat -> pieces max_message_size b = [b]) by (intros b Hb; apply pieces_short; lia).
  assert (Hcalls : peer_calls max_message_size x_sent = [(0, 0, [1], [1; 2; 3]); (0, 1, [1], [])]).
  { unfold peer_calls, x_sent. cbn [calls_from]. rewrite !Hs by (cbn; lia). reflexivity. }
  split; [exact t_correct|]. split; [vm_compute; intuition discriminate|]. split.
  - rewrite Hcalls. intros d c [<-|[<-|[]]] Hi e n ad p Hd; rewrite Hs2 in Hi by (vm_compute; lia); destruct Hi as [<-|[]].
    + unfold t_dec in Hd. match goal with H : (if ?b then _ else _) = _ |- _ => destruct b eqn:Eb end; [|discriminate]. injection Hd as <-.
      apply andb_true_iff in Eb as [_ Eb]. apply beq_eq in Eb. cbn in Eb. injection Eb as <- <- Hl Ha.
      destruct ad as [|a [|a2 ad]]; [discriminate| |unfold blen in Hl; cbn in Hl; lia]. subst a. vm_compute. auto.
    + unfold t_dec in Hd. match goal with H : (if ?b then _ else _) = _ |- _ => destruct b eqn:Eb end; [|discriminate].
      apply andb_true_iff in Eb as [_ Eb]. apply beq_eq in Eb. cbn in Eb. discriminate.
  - unfold nonces_used, x_sent. cbn [flat_map]. rewrite !Hs by (cbn; lia). reflexivity.
Qed.

Print Assumptions C38_honest_delivery.
Print Assumptions C38_sender_encryptions.
Print Assumptions C38_no_nonce_twice.
Print Assumptions C38_tampering_partial.
Print Assumptions C38_injection_refuted.
Print Assumptions C56_short_requests_partial.
Print Assumptions C56_truncation_refuted.
