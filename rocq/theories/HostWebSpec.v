(* Vocabulary for the host's service for clients. *)
From Verif Require Export HostWeb HostAuthSpec.

(* projections of what was seen *)
Definition pick {A} (f : act -> list A) (tr : list act) : list A := flat_map f tr.
(* messages the client sent and the host took *)
Definition got (tr : list act) : list bytes := pick (fun a => match a with ARead (RMsg d) => [d] | _ => [] end) tr.
(* messages passed to the enclave *)
Definition passed (tr : list act) : list bytes := pick (fun a => match a with AEnclave (QMsg _ d) _ => [d] | _ => [] end) tr.
(* what the enclave had for the client: the start of the handshake, and replies with data *)
Definition due (tr : list act) : list bytes :=
  pick (fun a => match a with AEnclave (QNew _) (PNew _ s) => [s] | AEnclave (QMsg _ _) (PMsg (b :: d) _) => [b :: d] | _ => [] end) tr.
(* what was sent to the client *)
Definition sent (tr : list act) : list bytes := pick (fun a => match a with ASend d _ => [d] | _ => [] end) tr.
(* the closing of a client in the enclave *)
Definition ends (tr : list act) : list N := pick (fun a => match a with AEnclave (QEnd c) _ => [c] | _ => [] end) tr.
Definition closes (tr : list act) : list N := pick (fun a => match a with AClose code => [code] | _ => [] end) tr.
Definition asks_enclave (tr : list act) : Prop := exists q r, In (AEnclave q r) tr.
(* the user's name is the id, in hexadecimal; ids have 16 bytes *)
Definition names (user id : bytes) : Prop := hex user id /\ length id = 16%nat.
