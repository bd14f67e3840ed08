(* C67: which evidence from AWS Nitro is accepted.  C68: evidence of another form.
   C69: evidence that stops the verifier. *)
From Coq Require Import Strings.String.
From Verif Require Import Nitro NitroSpec NitroProofs.

(* C67: a peer's evidence is accepted exactly if it is a signed document, Amazon's root
   vouches for the key that signed it, its values are as Amazon says, its PCRs 0, 1 and 2
   are the own ones; what it yields is the data in the document. *)
Theorem C67_accepted_exactly w local evidence now d :
  nitro_attest w local evidence now = Ret (Some d) <->
  good_nitro w local evidence now (fun header payload sig => no_two_ints w header \/ (es384 w header /\ payload <> [] /\ blen sig = 96)) d.
Proof. exact (attest_spec w local evidence now d). Qed.

(* C67: what is signed is RFC 9052's structure, and can be read in one way only: a signature
   serves for one document, or two inputs have the same hash *)
Theorem C67_signature_binds_document w e h p g e' h' p' g' :
  is_cose w e h p g -> is_cose w e' h' p' g' ->
  w_sha384 (nw_world w) (sig_structure h p) = w_sha384 (nw_world w) (sig_structure h' p') ->
  (h = h' /\ p = p') \/ exists x y, x <> y /\ w_sha384 (nw_world w) x = w_sha384 (nw_world w) y.
Proof.
  intros (a & b & c & _ & A & B & _) (a' & b' & c' & _ & A' & B' & _) H.
  apply is_bytes_small in A, B, A', B'.
  destruct (beq_spec (sig_structure h p) (sig_structure h' p')) as [E|E].
  - left. apply sig_structure_inj; try assumption; lia.
  - right. now exists (sig_structure h p), (sig_structure h' p').
Qed.
(* C67: a peer that runs other software is refused, whoever signs for it *)
Theorem C67_other_software_refused w local evidence now i v h p g ms ps :
  In i [0; 1; 2]%Z -> pcr_get i local = Some v -> is_cose w evidence h p g -> is_doc w p ms -> all_pcrs ms ps -> the_pcr i ps <> Some v ->
  forall d, nitro_attest w local evidence now <> Ret (Some d).
Proof.
  intros I L C (l & D & T) A N d H. apply attest_spec in H as (h' & p' & g' & ms' & ps' & bs & certb & cert & cas & key & t & data & C' & _ & (l' & D' & T') & _ & A' & _ & _ & _ & _ & _ & _ & _ & _ & _ & _ & Pm & _).
  assert (p' = p).
  { destruct C as (a & b & c & E & _ & B & _), C' as (a' & b' & c' & E' & _ & B' & _). rewrite E in E'. inversion E'; subst. eapply is_bytes_fun; eassumption. }
  subst p'. rewrite D in D'. injection D' as <-.
  assert (Fn : forall l ms ms', doc_items ms l -> doc_items ms' l -> ms = ms').
  { clear. intros l ms ms' H. revert ms'. induction H as [|k name x ms l T H IH]; intros ms' H'; inversion H' as [|? name' ? ms1 ? T' H1]; subst; [reflexivity|].
    f_equal; [f_equal; eapply is_text_fun; eassumption|now apply IH]. }
  rewrite (Fn _ _ _ T' T) in A'. rewrite (all_pcrs_fun _ _ _ A' A) in Pm. destruct (Pm i I) as (v' & L' & P'). apply N. congruence.
Qed.

(* C68, part: whatever its header says, the signature of accepted evidence has two numbers of
   48 bytes and is checked as ECDSA over SHA-384; a header that starts with two numbers says
   just ES384 *)
Theorem C68_algorithm_partial w local evidence now d : nitro_attest w local evidence now = Ret (Some d) ->
  exists header payload sig, is_cose w evidence header payload sig /\ blen sig = 96 /\
    (exists key, w_ecdsa (nw_world w) key (w_sha384 (nw_world w) (sig_structure header payload)) (be_value (firstn 48 sig)) (be_value (skipn 48 sig)) = true) /\
    forall a b rest, nw_cbor w header = Some (IMap (Cons (IInt a) (Cons (IInt b) rest))) -> int64 a -> int64 b -> rest <> Bad -> es384 w header.
Proof.
  intros H. apply attest_spec in H as (h & p & g & ms & ps & bs & certb & cert & cas & key & t & data & C & V & _ & _ & _ & _ & _ & _ & _ & _ & _ & _ & _ & L & E & _).
  exists h, p, g. split; [assumption|]. split; [assumption|]. split; [now exists key|]. intros a b rest M A B R.
  destruct V as [(l & M' & _ & N)|[V _]]; [|assumption]. rewrite M in M'. injection M' as <-. destruct (N a b rest eq_refl) as [X|[X|X]]; contradiction.
Qed.
(* C68, part: each PCR listed counts for a number below 32, has the size of a hash and, if it
   is listed under a number of 32 bits, counts for that number *)
Theorem C68_pcrs_partial w local evidence now d : nitro_attest w local evidence now = Ret (Some d) ->
  exists header payload sig ms ps, is_cose w evidence header payload sig /\ is_doc w payload ms /\ all_pcrs ms ps /\
    (forall i v, In (i, v) ps -> exists v', the_pcr (int32 i) ps = Some v' /\ (0 <= int32 i < 32)%Z /\ In (blen v') [32; 48; 64]) /\
    forall i v, In (i, v) ps -> (- 2 ^ 31 <= i < 2 ^ 31)%Z -> (0 <= i < 32)%Z.
Proof.
  intros H. apply attest_spec in H as (h & p & g & ms & ps & bs & certb & cert & cas & key & t & data & C & _ & D & _ & A & _ & _ & (_ & _ & _ & _ & G & _) & _).
  exists h, p, g, ms, ps. split; [assumption|]. split; [assumption|]. split; [assumption|].
  assert (X : forall i v, In (i, v) ps -> exists v', the_pcr (int32 i) ps = Some v').
  { intros i v I. unfold the_pcr. destruct (find _ (rev ps)) as [[? v']|] eqn:F; [now exists v'|]. exfalso.
    pose proof (find_none _ _ F (i, v)) as N. rewrite <- in_rev in N. specialize (N I). cbn in N. rewrite Z.eqb_refl in N. discriminate. }
  split.
  - intros i v I. destruct (X i v I) as [v' E]. destruct (G _ _ E) as [R S]. exists v'. split; [assumption|]. split; [assumption|]. cbn. intuition auto.
  - intros i v I R. destruct (X i v I) as [v' E]. destruct (G _ _ E) as [R' _]. unfold int32 in R'.
    destruct (Z.ltb_spec (i mod 2 ^ 32) (2 ^ 31)); pose proof (Z.mod_pos_bound i (2 ^ 32) eq_refl);
    destruct (Z_lt_le_dec i 0) as [Ni|Ni]; try (rewrite <- (Z.mod_unique i (2 ^ 32) (-1) (i + 2 ^ 32)) in * by lia; lia); rewrite Z.mod_small in * by lia; lia.
Qed.

(* C69, part: evidence in which no string is said to be longer than memory is answered *)
Theorem C69_answered_partial w local evidence now :
  (forall i, nw_cbor w evidence = Some i -> short_item i) ->
  (forall h p g i, is_cose w evidence h p g -> nw_cbor w p = Some i -> short_item i) ->
  exists r, nitro_attest w local evidence now = Ret r.
Proof. exact (attest_ends w local evidence now). Qed.

(* --- a small world --- *)
(* what the bytes say is looked up by their first; certificate 1 is Amazon's, and signed 2,
   which signed 3, up to time 10000 *)
Definition sig_of (r : N) : bytes := repeat 0 46 ++ [r / 256; r mod 256] ++ repeat 5 48.
Definition str (s : bytes) : item := IBytes (Some (blen s)) (Some s).
Definition txt (s : String.string) : item := IText (Some (blen (ascii s))) (Some (ascii s)).
Definition toy_doc (pcr0 : Z) : items := of_list
  [txt "module_id"; txt "i-0"; txt "digest"; txt "SHA384"; txt "timestamp"; IInt 1000000;
   txt "pcrs"; IMap (of_list [IInt pcr0; str (repeat 10 48); IInt 1; str (repeat 11 48); IInt 2; str (repeat 12 48); IInt 4; str (repeat 9 32)]);
   txt "certificate"; str [3]; txt "cabundle"; IArr None (of_list [str [1]; str [2]]);
   txt "public_key"; INull; txt "user_data"; str (repeat 42 32); txt "nonce"; INull].
Definition toy_sum (s : bytes) : N := fold_left N.add s 0.
Definition toy_ev (h p : bytes) (r : N) : item := IArr (Some 4) (of_list [str h; IMap End; str p; str (sig_of r)]).
Definition toy_cbor (s : bytes) : option item :=
  match s with
  | 5 :: _ => Some (IMap (of_list [IInt 1; IInt (-35)]))
  | 6 :: _ => Some (IMap End)
  | 7 :: _ => Some (IMap (toy_doc 0))
  | 8 :: _ => Some (IMap (toy_doc (2 ^ 32)))
  | 20 :: _ => Some (toy_ev [5] [7] (toy_sum (sig_structure [5] [7])))
  | 21 :: _ => Some (toy_ev [6] [7] (toy_sum (sig_structure [6] [7])))
  | 22 :: _ => Some (toy_ev [5] [8] (toy_sum (sig_structure [5] [8])))
  | 23 :: _ => Some (toy_ev [5] [7] 3)
  | 24 :: _ => Some (IArr (Some 4) (Cons (IBytes (Some (2 ^ 63)) None) Bad))
  | _ => None
  end.
Definition toy : nworld := {|
  nw_world := {|
    w_cert := N;
    w_d2i := fun s => match s with [c] => Some (c, 1) | _ => None end;
    w_chain := fun roots ims c now => (existsb (fun r => existsb (fun i => (i =? r + 1) && (c =? i + 1)) ims) roots && (now <? 10000)%Z)%bool;
    w_pubkey := fun c => if c =? 3 then Some (PEc [7]) else None;
    w_sha256 := fun s => [toy_sum s]; w_sha384 := fun s => [toy_sum s];
    w_rsa := fun _ _ _ _ => false;
    w_ecdsa := fun k d r s => ((r =? le_num d) && beq k [7])%bool;
    w_json := fun _ => None;
    w_data := fun s => Some (AData s []);
    w_amd_roots := [] |};
  nw_cbor := toy_cbor;
  nw_roots := [1] |}.
Definition toy_local : list (Z * bytes) := [(0%Z, repeat 10 48); (1%Z, repeat 11 48); (2%Z, repeat 12 48)].

Example x_accepted : nitro_attest toy toy_local [20] 13599 = Ret (Some (AData (repeat 42 32) [])).
Proof. vm_compute. reflexivity. Qed.
Example x_good : good_nitro toy toy_local [20] 13599 (fun header payload sig => no_two_ints toy header \/ (es384 toy header /\ payload <> [] /\ blen sig = 96)) (AData (repeat 42 32) []).
Proof. apply C67_accepted_exactly. exact x_accepted. Qed.
(* out of time, with another signature, and of other software *)
Example x_refused : nitro_attest toy toy_local [20] 13600 = Ret None /\ nitro_attest toy toy_local [23] 0 = Ret None /\
  nitro_attest toy (pcr_put 1 (repeat 7 48) toy_local) [20] 0 = Ret None.
Proof. vm_compute. auto. Qed.
Example x_answered : exists r, nitro_attest toy toy_local [20] 0 = Ret r.
Proof.
  apply C69_answered_partial.
  - intros i [= <-]. cbn. repeat split; reflexivity.
  - intros h p g i (a & b & c & E & _ & B & _) D. cbn in E. injection E as <- <- <-. destruct B as [[X _]|[X _]]; [discriminate|]. injection X as _ <-.
    injection D as <-. cbn. repeat split; reflexivity.
Qed.

(* C68, refuted: evidence is accepted although its header names no algorithm, and although
   the document has no PCR 0, only one that counts as 0 by its lowest bits *)
Theorem C68_form_refuted :
  (exists w local evidence now d header payload sig, nitro_attest w local evidence now = Ret (Some d) /\ is_cose w evidence header payload sig /\
     nw_cbor w header = Some (IMap End)) /\
  (exists w local evidence now d header payload sig ms ps, nitro_attest w local evidence now = Ret (Some d) /\ is_cose w evidence header payload sig /\
     is_doc w payload ms /\ all_pcrs ms ps /\ Forall (fun p => fst p <> 0%Z) ps).
Proof.
  assert (B : forall s, blen s < 2 ^ 63 -> is_bytes (str s) s) by (intros; right; now split).
  assert (T : forall s, blen (ascii s) < 2 ^ 63 -> is_text (txt s) (ascii s)) by (intros; now split).
  split.
  - exists toy, toy_local, [21], 0%Z. do 2 eexists. exists [7]. eexists. split; [vm_compute; reflexivity|]. split.
    + do 3 eexists. split; [reflexivity|]. split; [now apply B|]. split; [now apply B|]. now apply B.
    + reflexivity.
  - exists toy, toy_local, [22], 0%Z. do 2 eexists. exists [8]. do 3 eexists. split; [vm_compute; reflexivity|]. split.
    + do 3 eexists. split; [reflexivity|]. split; [now apply B|]. split; [now apply B|]. now apply B.
    + split; [eexists; split; [reflexivity|]; unfold toy_doc; cbn [of_list]; repeat (constructor; [now apply T|]); constructor|].
      split.
      * cbn [all_pcrs]. repeat lazymatch goal with
        | |- exists a b, ?p = a ++ b /\ (if beq ?x ?y then _ else _) /\ _ =>
            let r := eval vm_compute in (beq x y) in
            lazymatch r with
            | false => exists []; eexists; split; [reflexivity|]; split; [vm_compute; reflexivity|]
            | true => eexists [_; _; _; _]; exists []; split; [reflexivity|]; split; [eexists; split; [reflexivity|]; repeat (constructor; [split; vm_compute; congruence|now apply B|]); constructor|]
            end
        end. reflexivity.
      * repeat constructor; discriminate.
Qed.
(* C69, refuted: ten bytes that only say that a very long string follows stop the verifier *)
Theorem C69_answered_refuted : exists w local evidence now,
  nw_cbor w evidence = Some (IArr (Some 4) (Cons (IBytes (Some (2 ^ 63)) None) Bad)) /\ nitro_attest w local evidence now = Crash.
Proof. exists toy, toy_local, [24], 0%Z. split; reflexivity. Qed.

Print Assumptions C67_accepted_exactly.
Print Assumptions C67_signature_binds_document.
Print Assumptions C67_other_software_refused.
Print Assumptions C68_algorithm_partial.
Print Assumptions C68_pcrs_partial.
Print Assumptions C68_form_refuted.
Print Assumptions C69_answered_partial.
Print Assumptions C69_answered_refuted.
