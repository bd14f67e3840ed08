(* Vocabulary for requests between enclaves. *)
From Verif Require Export E2E TimeoutSpec HistSpec.
Open Scope Z_scope.

(* the calls of the callback of a request *)
Definition calls (tx : N) (rs : list eres) : list why :=
  flat_map (fun c => if (fst c =? tx)%N then [snd c] else []) (flat_map r_called rs).
(* after history h1 a request was made to a peer, with or without a timeout; it could
   be sent or not; it got the number tx *)
Definition asked_after (h1 h : list eop) (rs : list eres) (tx : N) (to : bytes) (d : option Z) (sent : bool) : Prop :=
  exists h2 r, h = h1 ++ ESend to d sent :: h2 /\ nth_error rs (length h1) = Some r /\ r_sent r = Some tx.
Definition asked (h : list eop) (rs : list eres) (tx : N) (to : bytes) (d : option Z) (sent : bool) : Prop :=
  exists h1, asked_after h1 h rs tx to d sent.
(* no answer yet *)
Definition waiting_for (s : e2e) (tx : N) : Prop := exists x, In x (e_out s) /\ x_tx x = tx.
Definition is_send (o : eop) : bool := match o with ESend _ _ _ => true | _ => false end.
(* timer ticks in a history *)
Definition e_ticks (h : list eop) : Z := Z.of_N (count (fun o => match o with ETick => true | _ => false end) h).
(* all functions of past ticks have been called *)
Definition caught_up (s : e2e) : Prop := t_running (e_time s) = [].
