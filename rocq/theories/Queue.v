(* Model of enclave/queue/queue.h. *)
From Verif Require Export Base.

Section Queue.
Context {T : Type}.

(* queue.h:44-50.  The mutex makes every operation below one step; a thread whose
   condition does not hold stays blocked and tries again later, the condition
   variables' notifications are left out. *)
Record queue := Queue { q_d : list T; q_max : N; q_popped : N }.
(* queue.h:17: popped_ is not initialized, so it starts with any value p0 *)
Definition new_queue (max_size p0 : N) : queue := Queue [] max_size p0.

Inductive qop := QPush (v : T) | QPop | QFlush | QFlushed (wait_for : N).
Inductive qres := QrBlocked | QrPushed | QrPopped (v : T) | QrFlush (wait_for : N) | QrFlushed.

Definition qstep (q : queue) (o : qop) : outcome (queue * qres) :=
  match o with
  | QPush v =>
      (* queue.h:19-25 Push *)
      if N.of_nat (length (q_d q)) <? q_max q then Ret (Queue (q_d q ++ [v]) (q_max q) (q_popped q), QrPushed) else Ret (q, QrBlocked)
  | QPop =>
      (* queue.h:27-36 Pop *)
      match q_d q with
      | [] => Ret (q, QrBlocked)
      | v :: d => Ret (Queue d (q_max q) ((q_popped q + 1) mod 2 ^ 64), QrPopped v)
      end
  | QFlush =>
      (* queue.h:38-40 Flush *)
      Ret (q, QrFlush ((q_popped q + N.of_nat (length (q_d q))) mod 2 ^ 64))
  | QFlushed w =>
      (* queue.h:41: the condition it waits for *)
      Ret (q, if w <=? q_popped q then QrFlushed else QrBlocked)
  end.

End Queue.
Arguments queue : clear implicits.
Arguments qop : clear implicits.
Arguments qres : clear implicits.
