(* A session of the Go client, host/web/client/svr.go:28-64 (send, Send2, Send3),
   after the handshake of NewClient (66-108), with the enclave at the other end and a
   host between them that does as it likes.  Simplified: encryption is ideal, a
   sealed message is its number and what is in it, and nobody else can make one; as
   in the Noise specification a number is used up by a message that is sealed or
   opened, and not by one that does not open. *)
From Verif Require Import Base.
Open Scope nat_scope.

Section Session.
Context {Q A R : Type}.
(* The enclave: its answer to the last of the requests of this session. *)
Variable serve : list Q -> A.
(* proto.Unmarshal *)
Variable parse : A -> option R.

(* What the host gives the client to read: the answer with a number, anything else,
   or an error of the connection. *)
Inductive delivery := Answer (i : nat) | Garbage | Broken.
(* svr.go:28-54, its results *)
Inductive result := Got (r : R) | Unparsed | Undecrypted | Unread | Unwritten.

Record session := Session { sealed : nat; opened : nat; log : list Q }.
Definition start : session := Session 0 0 [].

(* The enclave takes a request only with the next number (client.cc, Noise). *)
Definition enclave_takes (n : nat) (q : Q) (l : list Q) : list Q := if Nat.eqb n (length l) then l ++ [q] else l.

(* What the host does with one exchange: the client's write fails or not, the
   request is given to the enclave or not, and what is read. *)
Record host := Host { write_ok : bool; forward : bool; deliver : delivery }.

(* svr.go:28-54 send *)
Definition send (s : session) (q : Q) (h : host) : session * result :=
  let n := sealed s in
  if negb (write_ok h) then (Session (n + 1) (opened s) (log s), Unwritten) else
  let l := if forward h then enclave_takes n q (log s) else log s in
  match deliver h with
  | Broken => (Session (n + 1) (opened s) l, Unread)
  | Garbage => (Session (n + 1) (opened s) l, Undecrypted)
  | Answer i =>
      if Nat.eqb i (opened s) && Nat.ltb i (length l) then
        (Session (n + 1) (opened s + 1) l,
         match parse (serve (firstn (i + 1) l)) with Some r => Got r | None => Unparsed end)
      else (Session (n + 1) (opened s) l, Undecrypted)
  end.

(* Send2, Send3 one after another (svr.go:56-64). *)
Fixpoint run (s : session) (l : list (Q * host)) : session * list result :=
  match l with
  | [] => (s, [])
  | (q, h) :: r => let '(s1, x) := send s q h in let '(s2, xs) := run s1 r in (s2, x :: xs)
  end.
End Session.
Arguments result : clear implicits.
Arguments session : clear implicits.
