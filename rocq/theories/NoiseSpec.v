(* Vocabulary for statements about secure channels. *)
From Verif Require Import Noise.

(* a message cut into pieces of k bytes, the last one shorter or equal; at least one *)
Fixpoint cut (fuel k : nat) (m : bytes) : list bytes :=
  match fuel with
  | O => [m]
  | S f => if Nat.leb (length m) k then [m] else firstn k m :: cut f k (skipn k m)
  end.
Definition pieces (k : nat) (m : bytes) : list bytes := cut (length m) k m.

(* The AEAD encryptions a sender makes for a sequence of messages: key epoch, nonce,
   associated data, text.  No nonce is used twice; the last piece of a message is
   marked 1, the others 0; the key changes every 256 messages. *)
Definition call := (N * N * bytes * bytes)%type.
Fixpoint piece_calls (epoch nonce : N) (ps : list bytes) : list call :=
  match ps with
  | [] => []
  | p :: ps' => (epoch, nonce, [match ps' with [] => 1 | _ => 0 end], p) :: piece_calls epoch (nonce + 1) ps'
  end.
Fixpoint calls_from (k : nat) (i nonce : N) (ms : list bytes) : list call :=
  match ms with
  | [] => []
  | m :: ms' => piece_calls (i / 256) nonce (pieces k m) ++ calls_from k (i + 1) (nonce + N.of_nat (length (pieces k m))) ms'
  end.
Definition peer_calls (M : nat) (ms : list bytes) : list call := calls_from (M - MAC) 0 0 ms.
(* without associated data and rekeying *)
Fixpoint client_calls_from (nonce : N) (ms : list bytes) : list call :=
  match ms with [] => [] | m :: ms' => (0, nonce, [], m) :: client_calls_from (nonce + 1) ms' end.

Definition client_calls (M : nat) (ms : list bytes) : list call := client_calls_from 0 (flat_map (pieces (M - MAC)) ms).

Section Ideal.
Context (enc : N -> N -> bytes -> bytes -> bytes) (dec : N -> N -> bytes -> bytes -> option bytes).
(* encrypting adds MAC bytes, and decrypting undoes it *)
Definition aead_correct : Prop :=
  (forall e n ad p, length (enc e n ad p) = (length p + MAC)%nat) /\ (forall e n ad p, dec e n ad (enc e n ad p) = Some p).
(* The network forges nothing: among the pieces of what it delivers, whatever
   decrypts is the result of one of the sender's encryptions under the same key,
   nonce and associated data. *)
Definition no_forgery (M : nat) (calls : list call) (delivered : list bytes) : Prop :=
  forall d c, In d delivered -> In c (pieces M d) -> forall e n ad p, dec e n ad c = Some p ->
  In (e, n, ad, p) calls /\ c = enc e n ad p.
End Ideal.

(* answers: messages in order, then only errors *)
Definition messages_then_errors (ms : list bytes) (rs : list (option bytes)) : Prop :=
  exists k e, rs = map Some (firstn k ms) ++ repeat None e.
(* some of the messages, in their order *)
Inductive subseq {A} : list A -> list A -> Prop :=
| subseq_nil : forall l, subseq [] l
| subseq_take : forall x a b, subseq a b -> subseq (x :: a) (x :: b)
| subseq_skip : forall x a b, subseq a b -> subseq a (x :: b).
Definition successes {A} (rs : list (option A)) : list A := flat_map (fun r => match r with Some x => [x] | None => [] end) rs.
