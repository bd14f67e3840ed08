(* C50: frames on connections between hosts. *)
From Verif Require Import HostFrameSpec HostFrameProofs.

(* A payload of at most 128 MiB is read back as it was written, whatever follows it on
   the connection, and what follows is untouched. *)
Theorem C50_roundtrip : forall p t, blen p <= max_message ->
  exists w, write_framed p = Some w /\ read_framed (w ++ t) = FRes (Some p) (blen p) t.
Proof. exact frame_roundtrip. Qed.
Theorem C50_sequence : forall ps, Forall (fun p => blen p <= max_message) ps ->
  exists w, write_all ps = Some w /\ forall t, read_all (length ps) (w ++ t) = ps.
Proof. exact all_roundtrip. Qed.
Example ex_frame : exists w, write_framed (repeat 7 300) = Some w /\ firstn 3 w = [172; 2; 7] /\
  read_framed (w ++ [9]) = FRes (Some (repeat 7 300)) 300 [9].
Proof. eexists. split; [vm_compute; reflexivity|]. split; vm_compute; reflexivity. Qed.

(* Whatever arrives: at most 128 MiB is allocated; a longer length is refused before any
   allocation and after at most ten bytes. *)
Theorem C50_bounded : forall i, f_alloc (read_framed i) <= max_message.
Proof. exact frame_bounded. Qed.
Theorem C50_longer_rejected : forall h t, header h -> (length h <= 10)%nat -> digits h < 2 ^ 64 -> max_message < digits h ->
  read_framed (h ++ t) = FRes None 0 t.
Proof.
  intros h t Hh Hl Hv Hm. assert (E : read_uvarint 10 0 0 (h ++ t) = (Some (digits h), t)).
  { rewrite (header_read 10 0 0 h t Hh Hl); rewrite ?N.pow_0_r; [do 2 f_equal; lia|lia|reflexivity|lia]. }
  apply (header_rejected _ _ _ E Hm).
Qed.
Example ex_longer : header [129; 128; 128; 64] /\ digits [129; 128; 128; 64] = max_message + 1.
Proof. split; [cbn; lia|reflexivity]. Qed.
(* the writer does not look at the length: a longer payload is written, and refused by
   the reader *)
Theorem C50_longer_payload_rejected : forall p t, max_message < blen p -> blen p < 2 ^ 64 ->
  exists w, write_framed p = Some w /\ read_framed (w ++ t) = FRes None 0 (p ++ t).
Proof. exact too_long. Qed.
(* Whatever is accepted is a length of at most ten digits, and that many bytes. *)
Theorem C50_sound : forall i p a r, bytes_ok i = true -> read_framed i = FRes (Some p) a r ->
  exists h, i = h ++ p ++ r /\ header h /\ (length h <= 10)%nat /\ digits h = blen p /\ a = blen p /\ blen p <= max_message.
Proof. exact frame_sound. Qed.
(* A frame cut anywhere is an error, not a shorter message. *)
Theorem C50_cut_is_error : forall p w k, blen p < 2 ^ 64 -> write_framed p = Some w -> (k < length w)%nat ->
  f_out (read_framed (firstn k w)) = None.
Proof. exact frame_cut. Qed.

Print Assumptions C50_roundtrip.
Print Assumptions C50_sequence.
Print Assumptions C50_bounded.
Print Assumptions C50_longer_rejected.
Print Assumptions C50_longer_payload_rejected.
Print Assumptions C50_sound.
Print Assumptions C50_cut_is_error.
