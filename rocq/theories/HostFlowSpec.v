(* Vocabulary for statements about how the host's goroutines wait. *)
From Verif Require Import HostFlow.

Definition reachable (cap n : nat) (s : host) : Prop := exists es, run cap (host0 n) es = Some s.

(* nobody waits for anybody: no message is in the channel, no call in the enclave, and no
   goroutine before a worker or a lock *)
Definition at_rest (s : host) : Prop :=
  chan s = [] /\ Forall (fun w => w = None) (workers s) /\ tick s = None /\ loop s = LWait /\
  Forall (fun g => g = GRun \/ g = GEnd) (gone s) /\ others s = O.
(* somebody waits, and nothing can happen unless it comes from outside *)
Definition stuck (cap : nat) (s : host) : Prop := ~ at_rest s /\ forall e, internal e = true -> step cap s e = None.

(* a call that is in the enclave and has messages to put out *)
Definition unfinished (s : host) : Prop := (exists w o r, In (Some (w, o :: r)) (workers s)) \/ (exists o r, tick s = Some (o :: r)).
(* the goroutine that takes messages out is in ResetPeer, or waits for one that is *)
Definition resetting (s : host) : Prop :=
  match loop s with
  | LReset _ | LResetIn _ => True
  | LLock => exists i, nth_error (gone s) i = Some GReset \/ nth_error (gone s) i = Some GResetIn
  | LWait => False
  end.
(* how many messages the calls in the enclave still have to put out *)
Definition todo_of (w : option (who * list out)) : nat := match w with Some (_, l) => length l | None => 0 end.
Definition todo (s : host) : nat := fold_right (fun w n => todo_of w + n) 0 (workers s) + match tick s with Some l => length l | None => 0 end.
(* nobody abandons a sender to another replica: no queue overflows *)
Definition keeps_up (e : event) : Prop := match e with ELock Full | ELock AbandonedReset | EGoneLock _ true => False | _ => True end.
