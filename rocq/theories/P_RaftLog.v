(* C29: the replica's log storage.  Vocabulary: RaftLogSpec.v.  For any sizes of
   the C++ objects. *)
From Verif Require Import RaftLog RaftLogSpec RaftLogProofs.

(* The budget is kept: the accounted bytes, and the entries really stored, are
   never more than max. *)
Theorem C29_never_exceeds_budget :
  forall sz max base A hw l, log_run sz max base A hw l ->
  total_mem sz (l_entries l) <= l_bytes l /\ l_bytes l <= max.
Proof. intros sz max base A hw l H. destruct (run_holds _ _ _ _ _ _ H) as [d [_ [_ [_ [_ [_ [? [? _]]]]]]]]. auto. Qed.

(* Appending never crashes. *)
Theorem C29_append_never_crashes :
  forall sz max base A hw l e t, log_run sz max base A hw l -> t <= base + N.of_nat (length A) ->
  append sz e t l <> Crash.
Proof.
  intros sz max base A hw l e t H Ht.
  destruct (append_holds sz max base A hw l e t (run_holds _ _ _ _ _ _ H) Ht) as [l' [r [-> _]]]. discriminate.
Qed.

(* A lookup returns exactly the entry of that index, or nothing; it returns
   nothing for an index in use only if it is below what was applied. *)
Theorem C29_lookup_exact :
  forall sz max base A hw l i, log_run sz max base A hw l -> base < i ->
  at_idx l i = nth_error A (N.to_nat (i - base - 1)) \/ (at_idx l i = None /\ i < hw).
Proof. intros sz max base A hw l i H; exact (holds_lookup sz max base A hw l i (run_holds _ _ _ _ _ _ H)). Qed.
Theorem C29_unapplied_kept :
  forall sz max base A hw l i e, log_run sz max base A hw l -> base < i -> hw <= i ->
  nth_error A (N.to_nat (i - base - 1)) = Some e -> at_idx l i = Some e.
Proof.
  intros sz max base A hw l i e H Hi Hw He.
  destruct (holds_lookup sz max base A hw l i (run_holds _ _ _ _ _ _ H) Hi) as [E|[_ E]]; [congruence|lia].
Qed.

(* Full statement: an append is refused for space only if the entries from the
   applied index on, with the new one, exceed the budget.  True as long as
   nothing was cancelled; false after a cancellation, because CancelFrom does
   not give back the bytes of the entries it drops. *)
Definition refused_only_if_full (run : sizes -> N -> N -> list entry -> N -> rlog -> Prop) : Prop :=
  forall sz max base A hw l e t l',
  run sz max base A hw l -> t <= base + N.of_nat (length A) ->
  append sz e t l = Ret (l', L_OutOfSpace) ->
  total_mem sz (entries_on base t A) + mem_size sz e > max.
Theorem C29_space_partial : refused_only_if_full append_run.
Proof. intros sz max base A hw l e t l'; apply append_only_space. Qed.
Theorem C29_accounting_partial :
  forall sz max base A hw l, append_run sz max base A hw l -> l_bytes l = total_mem sz (l_entries l).
Proof. intros sz max base A hw l H; exact (proj2 (arun_run _ _ _ _ _ _ H)). Qed.

Definition x_entry : entry := Entry 1 (IData (zeros 100)) (zeros 32).
Definition x_sizes : sizes := Sizes 10 10 10 10 10.
(* one appended and cancelled entry of 162 bytes: an empty log with a budget of
   300 refuses the next one *)
Theorem C29_space_refuted : ~ refused_only_if_full log_run.
Proof.
  intros H.
  pose (l1 := match append x_sizes x_entry 0 (fst (set_next_idx 1 (empty_log 300))) with Ret (l, _) => l | Crash => empty_log 0 end).
  assert (E1 : append x_sizes x_entry 0 (fst (set_next_idx (0 + 1) (empty_log 300))) = Ret (l1, L_OK)) by (vm_compute; reflexivity).
  pose proof (run_append x_sizes 300 0 [] 0 _ x_entry 0 l1 L_OK (run_start x_sizes 300 0) ltac:(cbn; lia) E1) as R1.
  pose (l2 := fst (cancel_from 1 l1)).
  assert (E2 : cancel_from 1 l1 = (l2, L_OK)) by (vm_compute; reflexivity).
  pose proof (run_cancel x_sizes 300 0 _ _ _ 1 l2 L_OK R1 ltac:(lia) ltac:(cbn; lia) ltac:(cbn; lia) E2) as R2.
  assert (E3 : append x_sizes x_entry 0 l2 = Ret (l2, L_OutOfSpace)) by (vm_compute; reflexivity).
  specialize (H _ _ _ _ _ _ x_entry 0 l2 R2 ltac:(cbn; lia) E3).
  vm_compute in H. discriminate.
Qed.

(* --- the hypotheses are met ----------------------------------------------- *)
Definition x_entry2 : entry := Entry 2 (IData [7]) (zeros 32).
(* two entries appended, the first discarded after being applied to make room *)
Example x_log_run : exists l, append_run x_sizes 240 0 [x_entry; x_entry2; x_entry2] 2 l /\
  at_idx l 1 = None /\ at_idx l 2 = Some x_entry2 /\ at_idx l 3 = Some x_entry2 /\ at_idx l 4 = None.
Proof.
  pose (f := fun (o : outcome (rlog * lerr)) => match o with Ret (l, _) => l | Crash => empty_log 0 end).
  pose (l1 := f (append x_sizes x_entry 0 (fst (set_next_idx (0 + 1) (empty_log 240))))).
  pose (l2 := f (append x_sizes x_entry2 0 l1)).
  pose (l3 := f (append x_sizes x_entry2 2 l2)).
  assert (R1 : append_run x_sizes 240 0 [x_entry] 0 l1).
  { apply (arun_append x_sizes 240 0 [] 0 (fst (set_next_idx (0 + 1) (empty_log 240))) x_entry 0 l1 L_OK); [constructor|cbn; lia|vm_compute; reflexivity]. }
  assert (R2 : append_run x_sizes 240 0 [x_entry; x_entry2] 0 l2).
  { apply (arun_append x_sizes 240 0 [x_entry] 0 _ x_entry2 0 l2 L_OK R1); [cbn; lia|vm_compute; reflexivity]. }
  assert (R3 : append_run x_sizes 240 0 [x_entry; x_entry2; x_entry2] 2 l3).
  { apply (arun_append x_sizes 240 0 [x_entry; x_entry2] 0 _ x_entry2 2 l3 L_OK R2); [cbn; lia|vm_compute; reflexivity]. }
  exists l3. split; [exact R3|]. do 3 (split; [vm_compute; reflexivity|]). vm_compute; reflexivity.
Qed.

Print Assumptions C29_never_exceeds_budget.
Print Assumptions C29_append_never_crashes.
Print Assumptions C29_lookup_exact.
Print Assumptions C29_unapplied_kept.
Print Assumptions C29_space_partial.
Print Assumptions C29_accounting_partial.
Print Assumptions C29_space_refuted.
