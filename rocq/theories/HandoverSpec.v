(* Vocabulary for statements about handing leadership over. *)
From Verif Require Import RaftLog Raft RaftSpec RaftNet.

(* during event ev, replica k sends message m to [to] (None: to everybody) *)
Definition sends sz hmac (s : net) (ev : event) (k : bytes) (to : option bytes) (m : rmsg) : Prop :=
  exists sent, w_soup (net_step sz hmac s ev) = w_soup s ++ sent /\ In (k, (to, m)) sent.
