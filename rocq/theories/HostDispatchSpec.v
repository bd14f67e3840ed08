(* Vocabulary for the dispatcher. *)
From Verif Require Export HostDispatch HistSpec.

Definition is_call (o : dop) : bool := match o with DCall _ => true | _ => false end.
Definition is_request (o : dop) : bool := match o with DCall true => true | _ => false end.
Definition responds_to (id : N) (o : dop) : bool := match o with DRespond i _ => i =? id | _ => false end.
Definition takes (j : nat) (o : dop) : bool := match o with DTake k => (k =? j)%nat | _ => false end.
Definition fails (j : nat) (o : dop) : bool := match o with DSent k false => (k =? j)%nat | _ => false end.
(* the enclave is done with the call *)
Definition returns (j : nat) (o : dop) : bool := match o with DSent k _ => (k =? j)%nat | _ => false end.
Definition short (h : list dop) : Prop := N.of_nat (length h) < 2 ^ 64 - 1.
(* the [j]th call is a request, made after [h0] *)
Definition requested (h0 : list dop) (j : nat) : Prop := count is_call h0 = N.of_nat j.
(* the id of a request made after [h0] *)
Definition id_after (h0 : list dop) : N := count is_request h0 + 1.
(* what call [j] got, over a run *)
Definition answers (j : nat) (rs : list dres) : list (option response) :=
  flat_map (fun r => match r with Some (k, m) => if (k =? j)%nat then [m] else [] | None => [] end) rs.
