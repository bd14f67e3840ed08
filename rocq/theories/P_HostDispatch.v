(* C52: requests through the dispatcher. *)
From Verif Require Import HostDispatchSpec HostDispatchProofs.

(* Whatever the callers, the workers, the enclave and its errors do, and in whatever
   order: no channel is closed twice or written to after it was closed (which would
   panic). *)
Theorem C52_no_panic : forall h, short h -> exec dstep no_calls h <> Crash.
Proof. intros h Hs. destruct (inv_run h Hs) as (d & rs & -> & _). discriminate. Qed.
(* A caller that gets a response made a request, and the response is the first one with
   the id of that request after the request was handed to the enclave. *)
Theorem C52_own_reply : forall h d rs j id b, short h -> exec dstep no_calls h = Ret (d, rs) -> In (Some (j, Some (id, b))) rs ->
  exists h0 h1 h2 h3, h = h0 ++ DCall true :: h1 ++ DTake j :: h2 ++ DRespond id b :: h3 /\
    requested h0 j /\ id = id_after h0 /\ none_of (responds_to id) h2.
Proof. exact run_own. Qed.
(* No two requests have the same id. *)
Theorem C52_ids_distinct : forall h0 h1, short (h0 ++ DCall true :: h1) -> id_after h0 <> id_after (h0 ++ DCall true :: h1).
Proof. intros h0 h1 _. unfold id_after. rewrite count_app, count_cons. cbn [is_request]. lia. Qed.
(* A call returns at most once. *)
Theorem C52_at_most_once : forall h d rs j, short h -> exec dstep no_calls h = Ret (d, rs) -> (length (answers j rs) <= 1)%nat.
Proof. intros h d rs j Hs E. apply (run_answers _ _ _ _ Hs E). Qed.
(* A request that was handed to the enclave without an error, and had no response yet, gets the
   first response with its id, whatever happened in between to other requests. *)
Theorem C52_response_reaches : forall h0 h1 h2 j b, let h := h0 ++ DCall true :: h1 ++ DTake j :: h2 in
  short h -> requested h0 j -> none_of (takes j) h1 -> none_of (responds_to (id_after h0)) h2 -> none_of (fails j) h2 ->
  exists d rs, exec dstep no_calls (h ++ [DRespond (id_after h0) b; DHand; DReceive j]) = Ret (d, rs ++ [Some (j, Some (id_after h0, b))]).
Proof.
  intros h0 h1 h2 j b h Hs Hq Hn Hr Hf. destruct (inv_run h Hs) as (d & rs & E & V).
  pose proof (run_recv h0 h1 h2 j d rs Hs E Hq Hn Hr Hf) as H. destruct (reach h d j (id_after h0) b V H) as (d' & a & c & E').
  exists d', (rs ++ [a; c]). rewrite exec_app, E, E'. now rewrite <- app_assoc.
Qed.

(* two requests and a plain message; answers in the other order, a stray response, and
   a request whose hand-over fails *)
Definition ex_hist : list dop :=
  [DCall true; DCall false; DCall true; DTake 0; DTake 2; DSent 0 true; DTake 1; DSent 1 true; DReceive 1;
   DRespond 2 [22]; DHand; DRespond 1 [11]; DRespond 2 [23]; DReceive 0; DReceive 2; DReceive 2;
   DCall true; DTake 3; DSent 3 false; DFail 3; DReceive 3].
Definition ex_out := Eval vm_compute in match exec dstep no_calls ex_hist with Ret (_, rs) => rs | Crash => [] end.
Example ex_run : answers 0 ex_out = [Some (1, [11])] /\ answers 1 ex_out = [None] /\ answers 2 ex_out = [Some (2, [22])] /\ answers 3 ex_out = [None].
Proof. repeat split. Qed.
Example ex_reaches : short [DCall true; DCall true; DTake 1; DTake 0] /\ requested [DCall true] 1 /\ id_after [DCall true] = 2.
Proof. repeat split. Qed.

(* If the enclave returns an error for a request before any response to it came, the
   caller is told. *)
Theorem C52_error_reaches : forall h0 h1 h2 j, let h := h0 ++ DCall true :: h1 ++ DTake j :: h2 in
  short h -> requested h0 j -> none_of (takes j) h1 -> none_of (responds_to (id_after h0)) h2 -> none_of (returns j) h2 ->
  exists d rs, exec dstep no_calls (h ++ [DSent j false; DFail j; DReceive j]) = Ret (d, rs ++ [Some (j, None)]).
Proof.
  intros h0 h1 h2 j h Hs Hq Hn Hr Hf. destruct (inv_run h Hs) as (d & rs & E & V).
  assert (Hf' : none_of (fails j) h2).
  { intros o Ho. specialize (Hf o Ho). destruct o as [| |k ok| | | |]; cbn in *; auto. destruct ok; auto. }
  pose proof (run_recv h0 h1 h2 j d rs Hs E Hq Hn Hr Hf') as H. pose proof (run_taken h0 h1 h2 j d rs Hs E Hq Hn Hf) as Hp.
  destruct (fail_reach h d j _ V H Hp) as (d' & E').
  exists d', (rs ++ [None; None]). rewrite exec_app, E, E'. now rewrite <- app_assoc.
Qed.

Print Assumptions C52_no_panic.
Print Assumptions C52_own_reply.
Print Assumptions C52_ids_distinct.
Print Assumptions C52_at_most_once.
Print Assumptions C52_response_reaches.
Print Assumptions C52_error_reaches.
