(* Vocabulary for statements about replicas that stop. *)
From Verif Require Import RaftLog Raft RaftSpec RaftNet.

(* event ev calls a replica, or brings it a message addressed to it, and that makes
   the program abort: a failed CHECK, or an access outside of what there is *)
Definition aborts sz hmac (s : net) (ev : event) : Prop :=
  match ev with
  | ECall k (OReceive _ _ _ _ _) => False
  | ECall k o => exists n A, lookup k (w_now s) = Some (n, A) /\ rstep sz hmac n o = Crash
  | EDeliver k j ok1 ok2 rnd =>
      exists from to m n A, nth_error (w_soup s) j = Some (from, (to, m)) /\
        match to with Some p => p = k | None => from <> k end /\
        lookup k (w_now s) = Some (n, A) /\ rstep sz hmac n (OReceive ok1 ok2 rnd from m) = Crash
  | ERollback _ _ => False
  end.
(* the answer of a follower that holds entries beyond the log of the leader k *)
Definition beyond_leader (s : net) (ev : event) (k : bytes) : Prop :=
  exists j ok1 ok2 rnd from to m n A idx lst p h, ev = EDeliver k j ok1 ok2 rnd /\ nth_error (w_soup s) j = Some (from, (to, m)) /\
    lookup k (w_now s) = Some (n, A) /\ is_leader n = true /\ m_term m = n_term n /\ m_body m = AppResp true idx lst p h /\ llen A < idx.
