(* Vocabulary for statements about sockets. *)
From Verif Require Import Socket.

(* a message WritePB accepts *)
Definition fits (m : bytes) : Prop := blen m <= INT32_MAX.
(* what is on the wire after writing messages one after the other *)
Definition wire (ms : list bytes) : bytes := flat_map frame ms.
(* reading n messages in a row: the results, and the state after *)
Fixpoint read_n (n : nat) (r : rstate) : list (bytes + sockerr) * rstate :=
  match n with
  | O => ([], r)
  | S n' => let '(m, r1) := read_pb r in let '(ms, r2) := read_n n' r1 in (m :: ms, r2)
  end.
(* the messages a history of a write queue accepts, in order *)
Definition written (h : list wop) : list bytes :=
  flat_map (fun o => match o with WWrite m => if INT32_MAX <? blen m then [] else [m] | _ => [] end) h.
Definition prefix {A} (a b : list A) : Prop := exists c, b = a ++ c.
(* what waits in the buffers: the rest of the one being sent, then the current one *)
Definition unsent (q : wqueue) : bytes :=
  match w_phase q with WSending r => r ++ w_get q (w_cur q) | _ => w_get q (w_cur q) end.
