(* Vocabulary for statements about requests that are to be tried again. *)
From Verif Require Import CoreTxSpec Group GroupSpec.

(* Errors after which a request should be sent again: the host maps the first and the
   last to the close code 4014, "just retry" (host/web/handlers/websocket.go:134-141);
   the second is what the first was before it got to a client (core.cc:1649-1651). *)
Definition retry_code (code : N) : Prop := code = E_ClientCancelled \/ code = E_LogCancelled \/ code = E_LeaderUnknown.
(* a forwarded request is delivered at most once: it is a message of a channel, which
   takes each message once *)
Definition serves (j : nat) (ev : gevent) : bool := match ev with GServe _ j' _ _ _ => Nat.eqb j' j | _ => false end.
Definition served_once (evs : list gevent) : Prop := forall j, (length (filter (serves j) evs) <= 1)%nat.
(* x was asked for once, in the request q at replica k *)
Definition asked_once {D E} (g : group D E) (k : bytes) (q : req) (x : inner) : Prop :=
  saw g k (Asked E q x) /\ forall k2 q2, saw g k2 (Asked E q2 x) -> k2 = k /\ q2 = q.
