(* C51: credentials checked by the host. *)
From Verif Require Import HostAuthSpec HostAuthProofs.

(* A password is accepted for a user exactly when it is an integer, a colon and an
   even number of hexadecimal digits; the integer, as seconds, is within the validity
   window around now; and the bytes are the first ten of the MAC of the user, a colon
   and the usual decimal form of that integer. *)
Theorem C51_check_exact : forall hmac expiration now user pass,
  era now -> (0 <= expiration < 2 ^ 63 - 1)%Z ->
  check hmac expiration now user pass = true <->
  exists t z x sig n, pass = t ++ colon :: x /\ ~ In colon t /\ numeral t z /\ int64 z /\ hex x sig /\ within now z expiration /\
    usual n z /\ sig = firstn 10 (hmac (user ++ colon :: n)).
Proof. exact check_spec. Qed.

(* A password issued by PassFor is accepted, for that user, exactly until it expires. *)
Theorem C51_issued_until_expiry : forall hmac expiration now now2 user,
  mac32 hmac -> era now -> era now2 -> (0 <= expiration < 2 ^ 63 - 1)%Z ->
  check hmac expiration now2 user (pass_for hmac now user) = true <-> within now2 (t_sec now) expiration.
Proof. exact issued. Qed.

(* The MAC is computed of the user and the time: no two pairs have the same input. *)
Theorem C51_mac_input_injective : forall u v z z' n n',
  usual n z -> usual n' z' -> u ++ colon :: n = v ++ colon :: n' -> u = v /\ z = z'.
Proof. exact mac_inj. Qed.
Theorem C51_usual_exists_unique : forall z, exists n, usual n z /\ forall n', usual n' z -> n' = n.
Proof. intros z. exists (dec z). split; [apply dec_usual|]. intros n' H. eapply usual_unique; eauto using dec_usual. Qed.
(* A password accepted for two users needs two different inputs whose MACs begin alike. *)
Theorem C51_other_user_needs_collision : forall hmac expiration now now' user user' pass,
  era now -> era now' -> (0 <= expiration < 2 ^ 63 - 1)%Z ->
  check hmac expiration now user pass = true -> check hmac expiration now' user' pass = true -> user <> user' ->
  exists m m', m <> m' /\ firstn 10 (hmac m) = firstn 10 (hmac m').
Proof.
  intros hmac e now now' u u' pass Hn Hn' He H H' Hu. apply check_spec in H; auto. apply check_spec in H'; auto.
  destruct H as (t & z & x & sig & n & -> & Hc & N1 & _ & X1 & _ & U1 & ->). destruct H' as (t' & z' & x' & sig' & n' & E & Hc' & N2 & _ & X2 & _ & U2 & ->).
  assert (Es : Some (t, x) = Some (t', x')) by (transitivity (split_colon (t ++ colon :: x)); [symmetry; now apply split_spec|]; rewrite E; now apply split_spec).
  injection Es as <- <-. exists (u ++ colon :: n), (u' ++ colon :: n'). split; [|eapply hex_inj; eauto].
  intros X. apply (mac_inj _ _ _ _ _ _ U1 U2) in X as [X _]. contradiction.
Qed.

(* --- a concrete case ----------------------------------------------------------- *)
Definition toy_mac (m : bytes) : bytes := map (fun i => (fold_left N.add m 0 + N.of_nat i) mod 256) (seq 0 32).
Definition x_user : bytes := [117; 58; 49].        (* "u:1" *)
Definition x_now : time := Time 1700000000 5.
Definition day : Z := (86400 * 1000000000)%Z.
Example ex_mac32 : mac32 toy_mac.
Proof.
  intros m. split; [reflexivity|]. unfold toy_mac, bytes_ok. apply forallb_forall. intros c Hc. apply in_map_iff in Hc as (i & <- & _).
  apply N.ltb_lt, N.mod_lt. lia.
Qed.
Example ex_issued : era x_now /\ firstn 11 (pass_for toy_mac x_now x_user) = [49; 55; 48; 48; 48; 48; 48; 48; 48; 48; 58] /\
  check toy_mac day x_now x_user (pass_for toy_mac x_now x_user) = true /\
  check toy_mac day (Time (1700000000 + 86400) 0) x_user (pass_for toy_mac x_now x_user) = true /\
  check toy_mac day (Time (1700000000 + 86400) 1) x_user (pass_for toy_mac x_now x_user) = false /\
  check toy_mac day x_now [118; 58; 49] (pass_for toy_mac x_now x_user) = false.
Proof. split; [unfold era; cbn; lia|]. repeat split; vm_compute; reflexivity. Qed.
(* other spellings of the same password: a plus sign, leading zeros, capitals *)
Example ex_spelling : check toy_mac day x_now x_user (43 :: 48 :: pass_for toy_mac x_now x_user) = true.
Proof. vm_compute. reflexivity. Qed.

Print Assumptions C51_check_exact.
Print Assumptions C51_issued_until_expiry.
Print Assumptions C51_mac_input_injective.
Print Assumptions C51_usual_exists_unique.
Print Assumptions C51_other_user_needs_collision.
