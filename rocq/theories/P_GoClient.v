(* C108: what the Go client returns is the enclave's answer to the request that was
   sent, whatever the host between them does. *)
From Verif Require Import Base GoClient.
Open Scope nat_scope.

Section P.
Context {Q A R : Type}.
Variable serve : list Q -> A.
Variable parse : A -> option R.

(* An answer came that could be opened. *)
Definition answered (x : result R) : bool := match x with Got _ | Unparsed => true | _ => false end.
(* What there is to return of the answer to the last of some requests. *)
Definition returned (l : list Q) : result R := match parse (serve l) with Some r => Got r | None => Unparsed end.
Definition good (s : session Q) : Prop := opened s <= length (log s) /\ length (log s) <= sealed s.

Lemma takes_length n (q : Q) l : length l <= n -> length l <= length (enclave_takes n q l) <= n + 1.
Proof. intros H. unfold enclave_takes. destruct (Nat.eqb_spec n (length l)); [rewrite app_length; cbn; lia|lia]. Qed.
Lemma takes_prefix n (q : Q) l : exists t, enclave_takes n q l = l ++ t.
Proof. unfold enclave_takes. destruct (Nat.eqb n (length l)); [exists [q]; reflexivity|exists []; now rewrite app_nil_r]. Qed.

Lemma send_good s q h : good s -> good (fst (send serve parse s q h)) /\ sealed (fst (send serve parse s q h)) = sealed s + 1.
Proof.
  intros [O L]. unfold send. destruct (write_ok h); cbn [negb]; [|cbn [fst sealed]; split; [unfold good; cbn; lia|reflexivity]].
  set (l := if forward h then _ else _). assert (Hl : length (log s) <= length l <= sealed s + 1).
  { subst l. destruct (forward h); [apply takes_length; exact L|lia]. }
  clearbody l. destruct (deliver h) as [i| |]; [destruct (Nat.eqb_spec i (opened s)); [destruct (Nat.ltb_spec i (length l))|]; cbn [andb]|..];
    cbn [fst sealed]; (split; [unfold good; cbn [opened log sealed]; lia|reflexivity]).
Qed.

(* While every request so far was answered, the answer returned is that to the
   request that was sent, given by the enclave after the earlier ones. *)
Lemma lockstep qs : forall s, sealed s = length (log s) -> opened s = length (log s) ->
  forall s' xs, run serve parse s qs = (s', xs) -> forallb answered xs = true ->
  log s' = log s ++ map fst qs /\ sealed s' = length (log s') /\ opened s' = length (log s') /\
  forall k, k < length qs -> nth_error xs k = Some (returned (log s ++ firstn (k + 1) (map fst qs))).
Proof.
  induction qs as [|[q h] qs IH]; intros s S O s' xs H F; cbn [run] in H.
  { injection H as <- <-. cbn. rewrite app_nil_r. split; [reflexivity|]. split; [exact S|]. split; [exact O|]. intros k K. lia. }
  destruct (send serve parse s q h) as [s1 x] eqn:E. destruct (run serve parse s1 qs) as [s2 ys] eqn:G. injection H as <- <-.
  cbn [forallb] in F. apply andb_true_iff in F as [Fx Fy].
  assert (X : log s1 = log s ++ [q] /\ sealed s1 = length (log s1) /\ opened s1 = length (log s1) /\ x = returned (log s ++ [q])).
  { unfold send in E. destruct (write_ok h); cbn [negb] in E; [|injection E as <- <-; discriminate].
    destruct (deliver h) as [i| |]; [|injection E as <- <-; discriminate|injection E as <- <-; discriminate].
    destruct (Nat.eqb_spec i (opened s)) as [EI|]; [subst i|]; cbn [andb] in E; [|injection E as <- <-; discriminate].
    rewrite O in E. destruct (forward h).
    - unfold enclave_takes in E. rewrite S, Nat.eqb_refl in E. rewrite app_length in E. cbn [length] in E.
      destruct (Nat.ltb_spec (length (log s)) (length (log s) + 1)); [|lia]. injection E as <- <-. cbn [log sealed opened].
      rewrite app_length. cbn [length]. split; [reflexivity|]. split; [reflexivity|]. split; [reflexivity|].
      unfold returned. rewrite firstn_all2 by (rewrite app_length; cbn; lia). reflexivity.
    - rewrite Nat.ltb_irrefl in E. injection E as <- <-. discriminate. }
  destruct X as (L1 & S1 & O1 & ->). destruct (IH s1 S1 O1 _ _ G Fy) as (L2 & S2 & O2 & K).
  split; [rewrite L2, L1, <- app_assoc; reflexivity|]. split; [exact S2|]. split; [exact O2|].
  intros [|k] Lk; cbn [nth_error].
  - reflexivity.
  - rewrite K by (cbn in Lk; lia). rewrite L1. cbn [map fst Nat.add firstn]. rewrite <- app_assoc. reflexivity.
Qed.
Theorem C108_answer_is_to_the_request_partial qs s xs :
  run serve parse start qs = (s, xs) -> forallb answered xs = true ->
  log s = map fst qs /\ length xs = length qs /\
  forall k, k < length qs -> nth_error xs k = Some (returned (firstn (k + 1) (map fst qs))).
Proof.
  intros H F. destruct (lockstep qs start eq_refl eq_refl _ _ H F) as (L & _ & _ & K). split; [exact L|]. split; [|exact K].
  clear L K F. revert s xs H. generalize (@start Q). induction qs as [|[q h] qs IH]; intros s0 s xs H; cbn [run] in H.
  - injection H as <- <-. reflexivity.
  - destruct (send serve parse s0 q h) as [s1 x]. destruct (run serve parse s1 qs) as [s2 ys] eqn:G. injection H as <- <-.
    cbn [length]. f_equal. exact (IH _ _ _ G).
Qed.

(* Whatever happens, the enclave gets the requests in the order they were sent, none
   twice and none after one that is missing; and the answers that are opened are its
   answers, in its order, none twice and none left out. *)
Lemma order qs : forall s, good s -> forall sent, length sent = sealed s -> (exists t, sent = log s ++ t) ->
  forall s' xs, run serve parse s qs = (s', xs) ->
  (exists t, sent ++ map fst qs = log s' ++ t) /\ (exists t, log s' = log s ++ t) /\
  filter answered xs = map (fun i => returned (firstn (i + 1) (log s'))) (seq (opened s) (opened s' - opened s)) /\
  opened s <= opened s' /\ opened s' <= length (log s').
Proof.
  induction qs as [|[q h] qs IH]; intros s [O L] sent LS [t T] s' xs H; cbn [run] in H.
  { injection H as <- <-. cbn [map filter]. rewrite app_nil_r, Nat.sub_diag. cbn [seq map].
    split; [exists t; exact T|]. split; [exists []; now rewrite app_nil_r|]. split; [reflexivity|]. lia. }
  destruct (send serve parse s q h) as [s1 x] eqn:E. destruct (run serve parse s1 qs) as [s2 ys] eqn:G. injection H as <- <-.
  pose proof (send_good s q h (conj O L)) as [G1 S1]. rewrite E in G1, S1. cbn [fst] in G1, S1.
  (* the log after the request *)
  assert (LG : (exists u, log s1 = log s ++ u) /\ exists u, sent ++ [q] = log s1 ++ u).
  { assert (P : log s1 = log s \/ log s1 = enclave_takes (sealed s) q (log s)).
    { unfold send in E. destruct (write_ok h); cbn [negb] in E; [|injection E as <- <-; left; reflexivity].
      destruct (forward h); [right|left]; (destruct (deliver h) as [i| |]; [destruct (_ && _)%bool in E|..]; injection E as <- <-; reflexivity). }
    destruct P as [-> | ->].
    - split; [exists []; now rewrite app_nil_r|]. exists (t ++ [q]). rewrite T, <- app_assoc. reflexivity.
    - split; [apply takes_prefix|]. unfold enclave_takes. destruct (Nat.eqb_spec (sealed s) (length (log s))) as [Z|Z].
      + exists []. rewrite app_nil_r. f_equal. rewrite T in LS |- *. rewrite app_length in LS. destruct t; [now rewrite app_nil_r|cbn in LS; lia].
      + exists (t ++ [q]). rewrite T, <- app_assoc. reflexivity. }
  destruct LG as [[u U] SU].
  destruct (IH s1 G1 (sent ++ [q])) with (s' := s2) (xs := ys) as (C1 & [v V] & C3 & C4 & C5); [rewrite app_length; cbn; lia|exact SU|exact G|].
  split; [cbn [map fst]; rewrite <- app_assoc in C1; exact C1|]. split; [exists (u ++ v); rewrite V, U, <- app_assoc; reflexivity|].
  (* the answer *)
  assert (AN : (answered x = false /\ opened s1 = opened s) \/
               (answered x = true /\ opened s1 = opened s + 1 /\ opened s < length (log s1) /\ x = returned (firstn (opened s + 1) (log s1)))).
  { unfold send in E. destruct (write_ok h); cbn [negb] in E; [|injection E as <- <-; left; split; reflexivity].
    destruct (deliver h) as [i| |]; [|injection E as <- <-; left; split; reflexivity|injection E as <- <-; left; split; reflexivity].
    destruct (Nat.eqb_spec i (opened s)) as [EI|]; [subst i|]; cbn [andb] in E; [|injection E as <- <-; left; split; reflexivity].
    match type of E with context [Nat.ltb ?a ?b] => destruct (Nat.ltb_spec a b) end; injection E as <- <-; [right|left; split; reflexivity].
    cbn [opened log]. split; [destruct (parse _); reflexivity|]. split; [reflexivity|]. split; [assumption|reflexivity]. }
  destruct AN as [[Ax Ox]|(Ax & Ox & Lx & Ex)]; cbn [filter]; rewrite Ax.
  - rewrite Ox in C3, C4. split; [exact C3|]. lia.
  - rewrite Ox in C3, C4. split; [|lia]. rewrite C3. replace (opened s2 - opened s) with (S (opened s2 - (opened s + 1))) by lia.
    cbn [seq map]. f_equal; [|rewrite Nat.add_1_r; reflexivity]. rewrite Ex, V. f_equal.
    rewrite firstn_app. replace (opened s + 1 - length (log s1)) with 0 by lia. cbn [firstn]. now rewrite app_nil_r.
Qed.
Theorem C108_answers_in_order qs s xs :
  run serve parse start qs = (s, xs) ->
  (exists t, map fst qs = log s ++ t) /\
  filter answered xs = map (fun i => returned (firstn (i + 1) (log s))) (seq 0 (length (filter answered xs))) /\
  length (filter answered xs) <= length (log s).
Proof.
  intros H. assert (G : good (@start Q)) by (split; cbn; lia).
  destruct (order qs start G [] eq_refl (ex_intro _ [] eq_refl) _ _ H) as (A1 & _ & A3 & _ & A5).
  cbn [app opened start] in *. rewrite Nat.sub_0_r in A3.
  assert (LL : length (filter answered xs) = opened s) by (rewrite A3, map_length, seq_length; reflexivity).
  split; [exact A1|]. rewrite LL. split; [exact A3|exact A5].
Qed.
End P.

(* Full: an answer is that to the request it is returned for.  After one message that
   does not open, which the host can make, it is that to the request before. *)
Theorem C108_answer_to_another_refuted : forall (Q A R : Type) (serve : list Q -> A) (parse : A -> option R) q1 q2 r,
  parse (serve [q1]) = Some r ->
  exists h1 h2, snd (run serve parse start [(q1, h1); (q2, h2)]) = [Undecrypted; Got r].
Proof.
  intros Q A R serve parse q1 q2 r P. exists (Host true true Garbage), (Host true true (Answer 0)).
  cbn. rewrite P. reflexivity.
Qed.

Example C108_meets :
  run (fun l => length l) (fun n => if Nat.eqb n 2 then None else Some n) start
    [(7, Host true true (Answer 0)); (8, Host true true (Answer 1)); (9, Host true true (Answer 2))] =
    (Session 3 3 [7; 8; 9], [Got 1; Unparsed; Got 3]) /\
  run (fun l => length l) Some start
    [(7, Host true true (Answer 0)); (8, Host true false (Answer 0)); (9, Host true true (Answer 1))] =
    (Session 3 1 [7], [Got 1; Undecrypted; Undecrypted]).
Proof. split; reflexivity. Qed.

Print Assumptions C108_answer_is_to_the_request_partial.
Print Assumptions C108_answers_in_order.
Print Assumptions C108_answer_to_another_refuted.
