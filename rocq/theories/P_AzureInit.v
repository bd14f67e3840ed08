(* C104: an enclave on Azure that starts has verified itself; what fails for a
   while when it starts is tried again. *)
From Verif Require Import Base AzureInit.
Open Scope N_scope.

Section S.
Context {W : Type} (pause : N -> W -> W).

(* What a command that succeeded in the end has gone through: failures, each
   followed by a pause twice as long as the one before, then a success. *)
Inductive tried (c : @command W) : N -> W -> W -> Prop :=
| Works i w w' : c w = (w', 0) -> tried c i w w'
| Again i w w1 ret w' : c w = (w1, ret) -> ret <> 0 -> i < 5 -> tried c (i + 1) (pause (2 ^ i) w1) w' -> tried c i w w'.

Lemma attempts_tried c : forall n i w w', i + N.of_nat n = 6 ->
  (attempts pause c n i w = (w', true) <-> i < 6 /\ tried c i w w').
Proof.
  induction n as [|n IH]; intros i w w' E; cbn [attempts].
  - split; [discriminate|lia].
  - destruct (c w) as [w1 ret] eqn:C. destruct (N.eqb_spec ret 0) as [->|R].
    + split.
      * intros H. injection H as <-. split; [lia|]. now apply Works.
      * intros [_ H]. inversion H; subst; congruence.
    + rewrite IH by lia. split.
      * intros [L T]. split; [lia|]. apply (Again c i w w1 ret w' C R); [lia|exact T].
      * intros [_ T]. inversion T as [? ? ? H|? ? ? ? ? H H1 H2 H3]; subst; [congruence|].
        rewrite C in H. injection H as <- <-. split; [lia|exact H3].
Qed.

(* All commands in their order, each one's result the next one's start. *)
Inductive all_tried : list (@command W) -> W -> W -> Prop :=
| NoMore w : all_tried [] w w
| OneMore c cs w w1 w2 : tried c 0 w w1 -> all_tried cs w1 w2 -> all_tried (c :: cs) w w2.

Lemma run_all_tried cs : forall w w', run_all pause true cs w = Ret w' <-> all_tried cs w w'.
Proof.
  induction cs as [|c cs IH]; intros w w'; cbn [run_all].
  - split; [intros H; injection H as <-; constructor|intros H; inversion H; reflexivity].
  - destruct (attempts pause c 6 0 w) as [w1 [|]] eqn:A.
    + apply attempts_tried in A as [_ A]; [|reflexivity]. rewrite IH. split.
      * intros H. econstructor; eassumption.
      * intros H. inversion H as [|? ? ? w3 ? T R]; subst.
        assert (B1 : attempts pause c 6 0 w = (w1, true)) by (apply attempts_tried; [reflexivity|split; [reflexivity|exact A]]).
        assert (B2 : attempts pause c 6 0 w = (w3, true)) by (apply attempts_tried; [reflexivity|split; [reflexivity|exact T]]).
        rewrite B1 in B2. injection B2 as <-. exact R.
    + cbn [fatal]. split; [discriminate|]. intros H. inversion H as [|? ? ? w3 ? T R]; subst.
      assert (B2 : attempts pause c 6 0 w = (w3, true)) by (apply attempts_tried; [reflexivity|split; [reflexivity|exact T]]).
      congruence.
Qed.

Lemma must_true {A} x (k : bytes -> outcome A) r : must true x k = Ret r <-> exists b, x = Some b /\ k b = Ret r.
Proof.
  unfold must, fatal. destruct x as [b|]; split.
  - eauto.
  - intros (b' & E & H). congruence.
  - discriminate.
  - intros (b' & E & _). discriminate.
Qed.

(* With fatal messages logged: Init comes back exactly if everything went well,
   with what it read, and this very evidence was verified. *)
Theorem C104_started_means_verified_partial (m : @machine W) w0 w ev en pcrs :
  init pause m true w0 = Ret (w, ev, en, pcrs) <->
  exists w1 report q p,
    tmpdir m w0 = Some w1 /\ all_tried (commands m) w1 w /\
    file m w 0 = Some report /\ file m w 1 = Some (akcert ev) /\
    file m w 2 = Some (intermediate en) /\ file m w 3 = Some (vcek en) /\ file m w 4 = Some (ask en) /\
    snp_of m report = Some (snp_report ev) /\ runtime_of m report = Some (runtime_data ev) /\
    quote m w ev = Some (q, p) /\ pcrs_of m p = Some pcrs /\ verify m q en pcrs = true.
Proof.
  unfold init. destruct (tmpdir m w0) as [w1|]; cbn [fatal].
  2: { split; [discriminate|]. intros (w1 & r & q & p & H & _). discriminate. }
  destruct (run_all pause true (commands m) w1) as [w2|] eqn:R.
  2: { split; [discriminate|]. intros (w1' & r & q & p & H & T & _). injection H as <-.
       apply run_all_tried in T. congruence. }
  split.
  - intros H.
    apply must_true in H as (report & F0 & H). apply must_true in H as (ak & F1 & H). apply must_true in H as (im & F2 & H).
    apply must_true in H as (vk & F3 & H). apply must_true in H as (as_ & F4 & H). apply must_true in H as (sn & F5 & H).
    apply must_true in H as (rt & F6 & H). apply must_true in H as (pc & F7 & H).
    destruct (quote m w2 _) as [[q p]|] eqn:Q in H; [|discriminate]. rewrite Q in F7.
    destruct (verify m q _ pc) eqn:V; [|discriminate]. injection H as <- <- <- <-.
    exists w1, report, q, p. apply run_all_tried in R. cbn [akcert intermediate vcek ask snp_report runtime_data].
    repeat (split; [assumption || reflexivity|]). exact V.
  - intros (w1' & report & q & p & E & T & F0 & F1 & F2 & F3 & F4 & F5 & F6 & Q & P & V). injection E as <-.
    apply run_all_tried in T. rewrite R in T. injection T as ->.
    destruct ev as [sn rt ak], en as [im vk as_]. cbn [akcert intermediate vcek ask snp_report runtime_data] in *.
    rewrite F0. cbn [must]. rewrite F1. cbn [must]. rewrite F2. cbn [must]. rewrite F3. cbn [must]. rewrite F4. cbn [must].
    rewrite F5. cbn [must]. rewrite F6. cbn [must]. rewrite Q, P. cbn [must]. rewrite V. reflexivity.
Qed.

(* Without, an enclave starts whatever fails: no certificate, no quote, evidence
   that does not verify. *)
Lemma run_all_false cs : forall w, exists w', run_all pause false cs w = Ret w'.
Proof.
  induction cs as [|c cs IH]; intros w; [exists w; reflexivity|]. cbn [run_all fatal].
  destruct (attempts pause c 6 0 w) as [w1 [|]]; apply IH.
Qed.
Theorem C104_starts_unverified_refuted (m : @machine W) w0 : exists r, init pause m false w0 = Ret r.
Proof.
  assert (M : forall A x (k : bytes -> outcome A), (forall b, exists r, k b = Ret r) -> exists r, must false x k = Ret r).
  { intros A x k H. destruct x as [b|]; [exact (H b)|exact (H [])]. }
  assert (G : forall w1, exists r, match run_all pause false (commands m) w1 with Crash => Crash | Ret w =>
      must false (file m w 0) (fun report =>
      must false (file m w 1) (fun akcert =>
      must false (file m w 2) (fun inter =>
      must false (file m w 3) (fun vcek =>
      must false (file m w 4) (fun ask =>
      must false (snp_of m report) (fun snp =>
      must false (runtime_of m report) (fun rt =>
        let ev := {| snp_report := snp; runtime_data := rt; akcert := akcert |} in
        let en := {| intermediate := inter; vcek := vcek; ask := ask |} in
        must false (match quote m w ev with Some (_, p) => pcrs_of m p | None => None end) (fun pcrs =>
        match quote m w ev with
        | None => fatal false (Ret (w, ev, en, pcrs))
        | Some (q, _) => if verify m q en pcrs then Ret (w, ev, en, pcrs) else fatal false (Ret (w, ev, en, pcrs))
        end)))))))) end = Ret r).
  { intros w1. destruct (run_all_false (commands m) w1) as [w ->].
    apply M; intros b0. apply M; intros b1. apply M; intros b2. apply M; intros b3. apply M; intros b4.
    apply M; intros b5. apply M; intros b6. cbn zeta. apply M; intros b7. cbn [fatal].
    destruct (quote m w _) as [[q p]|]; [|eauto]. destruct (verify m q _ b7); eauto. }
  unfold init. destruct (tmpdir m w0) as [w1|]; cbn [fatal]; apply G.
Qed.
End S.

(* How long a command may fail: with time that passes only in the pauses, it is
   tried at 0, 1, 3, 7, 15 and 31 seconds.  One that works from second d on, and
   not before, is waited for if d is at most 31; *)
Definition from (d : N) : @command N := fun w => (w, if d <=? w then 0 else 1).
Definition later (s : N) (w : N) : N := w + s.
Theorem C104_waited_for_partial d cs : d <= 31 ->
  exists w', d <= w' <= 31 /\ (w' = 0 \/ w' < 2 * d) /\ run_all later true (from d :: cs) 0 = run_all later true cs w'.
Proof.
  intros D. cbn [run_all attempts from].
  repeat match goal with |- context [d <=? ?x] =>
    let v := eval vm_compute in x in change x with v; destruct (N.leb_spec d v);
    cbn [N.eqb]; [exists v; split; [lia|]; split; [lia|reflexivity]|]; cbn [attempts from] end.
  lia.
Qed.
(* but not for longer, although the code means to go on for two to three
   minutes: the last pause, of 32 seconds, is followed by no attempt. *)
Theorem C104_not_waited_for_minutes_refuted d cs : 31 < d -> run_all later true (from d :: cs) 0 = Crash.
Proof.
  intros D. cbn [run_all attempts from].
  repeat match goal with |- context [d <=? ?x] =>
    let v := eval vm_compute in x in change x with v; destruct (N.leb_spec d v); [lia|]; cbn [N.eqb]; cbn [attempts from] end.
  reflexivity.
Qed.

(* A server that cannot be reached is tried again, and its certificate taken; *)
Theorem C104_no_answer_is_tried_again_partial server is_cert body :
  server 0 = None -> server 1 = Some body -> is_cert body = true ->
  run_all net_pause true [curl server; convert is_cert] (Net 0 []) = Ret (Net 1 body).
Proof.
  intros A B C. cbn [run_all attempts]. unfold curl at 1. cbn [now]. rewrite A. cbn [N.eqb attempts].
  unfold curl at 1. cbn [now net_pause]. change (0 + 2 ^ 0) with 1. rewrite B. cbn [N.eqb].
  cbn [run_all attempts]. unfold convert. cbn [vcek_file]. rewrite C. reflexivity.
Qed.
(* one that answers with an error is not: its page is taken for the certificate,
   and the enclave stops, however well the server answers from then on. *)
Theorem C104_error_page_is_not_tried_again_refuted server is_cert page :
  server 0 = Some page -> is_cert page = false ->
  run_all net_pause true [curl server; convert is_cert] (Net 0 []) = Crash.
Proof.
  intros A C. cbn [run_all attempts]. unfold curl at 1. cbn [now]. rewrite A. cbn [N.eqb].
  cbn [run_all attempts]. unfold convert, net_pause. cbn [vcek_file now]. rewrite !C. reflexivity.
Qed.

(* A machine on which a command fails once and all else goes well. *)
Definition ex_machine : @machine N := {|
  tmpdir := Some; commands := [from 0; from 2];
  file := fun _ n => Some [n]; snp_of := fun b => Some (1 :: b); runtime_of := fun b => Some (2 :: b);
  quote := fun _ e => Some (snp_report e, [9]); pcrs_of := Some;
  verify := fun q _ p => match q, p with [1; 0], [9] => true | _, _ => false end |}.
Example C104_meets :
  init later ex_machine true 0 = Ret (3, Evidence [1; 0] [2; 0] [1], Endorsements [2] [3] [4], [9]).
Proof. vm_compute. reflexivity. Qed.
Example C104_stops : init later {| tmpdir := Some; commands := []; file := fun _ n => Some [n];
  snp_of := Some; runtime_of := Some; quote := fun _ e => Some (snp_report e, [9]); pcrs_of := Some; verify := fun _ _ _ => false |} true 0 = Crash.
Proof. vm_compute. reflexivity. Qed.
Example C104_page_meets : let server := fun t => Some (if t =? 0 then [] else [5]) in
  let is_cert := fun b => match b with [5] => true | _ => false end in
  run_all net_pause true [curl server; convert is_cert] (Net 0 []) = Crash.
Proof. vm_compute. reflexivity. Qed.

Print Assumptions C104_started_means_verified_partial.
Print Assumptions C104_starts_unverified_refuted.
Print Assumptions C104_waited_for_partial.
Print Assumptions C104_not_waited_for_minutes_refuted.
Print Assumptions C104_no_answer_is_tried_again_partial.
Print Assumptions C104_error_page_is_not_tried_again_refuted.
