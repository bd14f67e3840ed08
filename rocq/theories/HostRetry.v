(* How the host tries again: host/util/util.go (Clamp, RetrySupplierWithBackoff)
   and the loop that connects to a peer, host/peer/client.go (peerSender.run).
   Simplified: durations are nanoseconds in 64 bits; the clock only goes on by
   the waits and by the times that dialing and connections take (the code
   between takes no time); the address of the peer has been found. *)
From Verif Require Import Base.
Open Scope Z_scope.

(* Go's int64 arithmetic wraps around. *)
Definition i64 (z : Z) : Z := (z + 2 ^ 63) mod 2 ^ 64 - 2 ^ 63.

(* util.go:14-33 *)
Definition gmin (a b : Z) : Z := if a <? b then a else b.
Definition gmax (a b : Z) : Z := if b <? a then a else b.
Definition clamp (v lo hi : Z) : Z := gmax lo (gmin hi v).

(* util.go:42-58 RetrySupplierWithBackoff.  What the calls return, one after
   the other, None for an error; the last state of affairs is that the context
   ends. The result: the waits, and the value or None (the context's error). *)
Fixpoint retry_from {T} (lo hi sleep : Z) (calls : list (option T)) : list Z * option T :=
  match calls with
  | [] => ([], None)
  | Some v :: _ => ([sleep], Some v)
  | None :: rest =>
      let '(waits, r) := retry_from lo hi (clamp (i64 (sleep * 2)) lo hi) rest in
      (sleep :: waits, r)
  end.
Definition retry {T} (lo hi : Z) (calls : list (option T)) : list Z * option T :=
  retry_from lo hi 0 calls.

(* client.go:272-340.  One attempt to connect: dialing fails after [d]; or it
   succeeds after [d] and the connection ends after [len], with a failed
   handshake or later. *)
Inductive attempt := NoDial (d : Z) | NoHandshake (d len : Z) | Talked (d len : Z).
Record peer_config := PeerConfig { lo : Z; hi : Z; abandon : Z }.

(* What can be seen: an attempt begins, it ends (did the two talk?), the peer is
   given up. *)
Inductive seen := Begins (at_ : Z) | Ends (at_ : Z) (talked : bool) | GivesUp (at_ : Z).

Fixpoint run_from (c : peer_config) (now last sleep : Z) (l : list attempt) : list seen :=
  if abandon c <? now - last then [GivesUp now] else
  match l with
  | [] => []
  | a :: rest =>
      let begin := now + sleep in
      Begins begin ::
      match a with
      | NoDial d =>
          Ends (begin + d) false ::
          run_from c (begin + d) last (clamp (i64 (sleep * 2)) (lo c) (hi c)) rest
      | NoHandshake d len =>
          Ends (begin + d + len) false ::
          run_from c (begin + d + len) last (clamp (i64 (sleep * 2 - len)) (lo c) (hi c)) rest
      | Talked d len =>
          Ends (begin + d + len) true ::
          run_from c (begin + d + len) (begin + d + len)
            (clamp (i64 (sleep * 2 - len)) (lo c) (hi c)) rest
      end
  end.
Definition run (c : peer_config) (now : Z) (l : list attempt) : list seen := run_from c now now 0 l.
