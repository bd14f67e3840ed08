(* What a replica's log storage is asked to do, and what it should then hold. *)
From Verif Require Import RaftLog.

(* [run sz max base A hw l]: a log with budget max, whose first index is base+1,
   was asked to append and cancel entries so that the sequence A is current;
   hw is the highest index it was ever told had been applied.  Entries are only
   cancelled beyond what was applied, and no index beyond the end is applied. *)
Inductive log_run (sz : sizes) (max base : N) : list entry -> N -> rlog -> Prop :=
| run_start : log_run sz max base [] 0 (fst (set_next_idx (base + 1) (empty_log max)))
| run_append A hw l e t l' r :
    log_run sz max base A hw l -> t <= base + N.of_nat (length A) ->
    append sz e t l = Ret (l', r) ->
    log_run sz max base (match r with L_OK => A ++ [e] | _ => A end) (N.max hw t) l'
| run_cancel A hw l i l' r :
    log_run sz max base A hw l -> base < i -> hw < i -> i <= base + N.of_nat (length A) + 1 ->
    cancel_from i l = (l', r) ->
    log_run sz max base (firstn (N.to_nat (i - base - 1)) A) hw l'.

(* the same without cancellations *)
Inductive append_run (sz : sizes) (max base : N) : list entry -> N -> rlog -> Prop :=
| arun_start : append_run sz max base [] 0 (fst (set_next_idx (base + 1) (empty_log max)))
| arun_append A hw l e t l' r :
    append_run sz max base A hw l -> t <= base + N.of_nat (length A) ->
    append sz e t l = Ret (l', r) ->
    append_run sz max base (match r with L_OK => A ++ [e] | _ => A end) (N.max hw t) l'.

Definition total_mem (sz : sizes) (es : list entry) : N := fold_right (fun e n => mem_size sz e + n) 0 es.

(* the entries of A (first index base+1) from index i on *)
Definition entries_on (base i : N) (A : list entry) : list entry := skipn (N.to_nat (i - base - 1)) A.
