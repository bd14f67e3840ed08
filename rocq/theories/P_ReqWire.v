(* C79: a request is applied as it was sent: from the client's message to the log and from
   the log to the database nothing of it changes, and nothing is let in that the
   database would refuse. *)
From Verif Require Import ReqWire ReqWireSpec ReqWireProofs DB2 DB3 DB4 DB5.

(* what a client writes is what the enclave reads *)
Theorem C79_written_is_read2 r : fits2 r -> parse_req2 (ser_req2 r) = Some r. Proof. apply req2_roundtrip. Qed.
Theorem C79_written_is_read3 r : fits3 r -> parse_req3 (ser_req3 r) = Some r. Proof. apply req3_roundtrip. Qed.
Theorem C79_written_is_read4 r : fits4 r -> parse_req4 (ser_req4 r) = Some r. Proof. apply req4_roundtrip. Qed.
Theorem C79_written_is_read5 r : fits5 r -> parse_req5 (ser_req5 r) = Some r. Proof. apply req5_roundtrip. Qed.

(* Whatever bytes a client sends: they get into the log if and only if they are a request
   that the database accepts for the client's id; the entry is then read, by every
   replica, as that request for that id. *)
Section P.
Context {R L : Type}.
Variables (parse_req : bytes -> option R) (log_from : bytes -> R -> L + dberr) (validate : L -> dberr) (ser_log : L -> bytes) (parse_log : bytes -> option L).
Definition applied_as_sent (id s : bytes) : Prop :=
  (forall d, client_entry parse_req log_from validate ser_log id s = Some d ->
     exists r l, parse_req s = Some r /\ log_from id r = inl l /\ validate l = E_OK /\ parse_log d = Some l) /\
  (forall r l, parse_req s = Some r -> log_from id r = inl l -> validate l = E_OK ->
     exists d, client_entry parse_req log_from validate ser_log id s = Some d).
Lemma as_sent id s : (forall r l, parse_req s = Some r -> log_from id r = inl l -> parse_log (ser_log l) = Some l) -> applied_as_sent id s.
Proof.
  intros H. unfold applied_as_sent, client_entry. split.
  - intros d. destruct (parse_req s) as [r|] eqn:E1; [|discriminate]. destruct (log_from id r) as [l|] eqn:E2; [|discriminate].
    destruct (validate l) eqn:E3; try discriminate. intros X. injection X as <-. exists r, l. eauto.
  - intros r l E1 E2 E3. rewrite E1, E2, E3. eauto.
Qed.
End P.
Lemma id_fits (id : bytes) : length id = 16%nat -> str_fits id. Proof. intros H. unfold str_fits, blen. rewrite H. reflexivity. Qed.
Theorem C79_applied_as_sent2 id s : message s -> applied_as_sent parse_req2 log_from_request2 validate2 ser_log2 parse_log2 id s.
Proof.
  intros Hs. apply as_sent. intros r l Hp. unfold log_from_request2, BACKUP_ID_SIZE. destruct (Nat.eqb_spec (length id) 16); [|discriminate]. intros X. injection X as <-.
  apply log2_roundtrip; [now apply id_fits|]. eapply parse_req2_fits; eassumption.
Qed.
(* SVR3: the entry holds a fresh key as well, of at most 32 bytes *)
Theorem C79_applied_as_sent3 key id s : message s -> blen key <= 32 -> applied_as_sent parse_req3 (log_from_request3 key) validate3 ser_log3 parse_log3 id s.
Proof.
  intros Hs Hk. apply as_sent. intros r l Hp. unfold log_from_request3, ID_SIZE3. destruct (Nat.eqb_spec (length id) 16); [|discriminate]. intros X. injection X as <-.
  apply log3_roundtrip; [now apply id_fits|eapply parse_req3_fits; eassumption|]. cbn [l3_priv]. unfold str_fits. destruct r; try reflexivity. eapply N.le_lt_trans; [exact Hk|reflexivity].
Qed.
Theorem C79_applied_as_sent4 c id s : message s -> applied_as_sent parse_req4 log_from_request4 (validate4 c) ser_log4 parse_log4 id s.
Proof.
  intros Hs. apply as_sent. intros r l Hp. unfold log_from_request4, ID_SIZE4. destruct (Nat.eqb_spec (length id) 16); [|discriminate].
  intros X. assert (l = Log4 id r) as -> by (destruct r; try discriminate; now injection X as <-).
  apply log4_roundtrip; [now apply id_fits|]. eapply parse_req4_fits; eassumption.
Qed.
Theorem C79_applied_as_sent5 id s : message s -> applied_as_sent parse_req5 log_from_request5 validate5 ser_log5 parse_log5 id s.
Proof.
  intros Hs. apply as_sent. intros r l Hp. unfold log_from_request5, ID_SIZE5. destruct (Nat.eqb_spec (length id) 16); [|discriminate]. intros X. injection X as <-.
  apply log5_roundtrip; [now apply id_fits|]. eapply parse_req5_fits; eassumption.
Qed.
(* the log that is read is for the client's id and holds the request that was read from
   its message: the four LogFromRequest do no more than this *)
Theorem C79_log_is_the_request :
  (forall id r l, log_from_request2 id r = inl l -> l = Log2 id r) /\
  (forall key id r l, log_from_request3 key id r = inl l -> l3_id l = id /\ l3_req l = r) /\
  (forall id r l, log_from_request4 id r = inl l -> l = Log4 id r) /\
  (forall id r l, log_from_request5 id r = inl l -> l = Log5 id r).
Proof.
  unfold log_from_request2, log_from_request3, log_from_request4, log_from_request5. repeat split; intros.
  - destruct (negb _); [discriminate|]. now injection H as <-.
  - destruct (negb _); [discriminate|]. now injection H as <-.
  - destruct (negb _); [discriminate|]. now injection H as <-.
  - destruct (negb _); [discriminate|]. destruct r; try discriminate; now injection H as <-.
  - destruct (negb _); [discriminate|]. now injection H as <-.
Qed.

(* --- concrete messages ------------------------------------------------------------- *)
(* a Backup with 3 tries, as protoc writes it: field 2, of 76 bytes *)
Definition x_backup79 : bytes := [18; 70; 10; 32] ++ repeat 9 32 ++ [18; 32] ++ repeat 1 32 ++ [24; 3].
Example x_backup_read : message x_backup79 /\ parse_req2 x_backup79 = Some (Backup (repeat 9 32) (repeat 1 32) 3) /\
  ser_req2 (Backup (repeat 9 32) (repeat 1 32) 3) = x_backup79 /\
  match client_entry2 (repeat 7 16) x_backup79 with Some d => parse_log2 d = Some (Log2 (repeat 7 16) (Backup (repeat 9 32) (repeat 1 32) 3)) | None => False end.
Proof. vm_compute. repeat split; reflexivity. Qed.
(* two of the oneof's fields, the same field twice, and an unknown field *)
Example x_last_wins : parse_req2 [34; 0; 26; 4; 10; 2; 1; 1] = Some (Restore [1; 1]) /\ parse_req2 [26; 4; 10; 2; 1; 1; 34; 0] = Some Delete /\
  parse_req2 [18; 2; 24; 3; 18; 3; 10; 1; 8] = Some (Backup [8] [] 3) /\ parse_req2 [122; 0; 34; 0] = Some Delete /\ parse_req2 [26; 1; 10; 34; 0] = None.
Proof. vm_compute. repeat split; reflexivity. Qed.
Definition x_create79 : bytes := ser_req4 (Create4 7 (repeat 3 32) (repeat 5 32) (repeat 11 32) (repeat 2 32) 4000000000).
Example x_create_read : message x_create79 /\ parse_req4 x_create79 = Some (Create4 7 (repeat 3 32) (repeat 5 32) (repeat 11 32) (repeat 2 32) 4000000000).
Proof. vm_compute. repeat split; reflexivity. Qed.
Example x_refused79 : client_entry2 (repeat 7 15) x_backup79 = None /\ client_entry2 (repeat 7 16) [26; 4; 10; 2; 1; 1] = None /\ client_entry5 (repeat 7 16) [34; 0] = None.
Proof. vm_compute. repeat split; reflexivity. Qed.

Print Assumptions C79_written_is_read2.
Print Assumptions C79_written_is_read3.
Print Assumptions C79_written_is_read4.
Print Assumptions C79_written_is_read5.
Print Assumptions C79_applied_as_sent2.
Print Assumptions C79_applied_as_sent3.
Print Assumptions C79_applied_as_sent4.
Print Assumptions C79_applied_as_sent5.
Print Assumptions C79_log_is_the_request.
