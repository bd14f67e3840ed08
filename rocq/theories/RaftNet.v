(* A group of replicas and the network between them.  Each replica runs the code
   modelled in Raft.v.  The network may drop, duplicate, delay and reorder
   messages: any message ever sent may be delivered at any time, any number of
   times, to the replica it is addressed to (a broadcast: to any other replica).
   It cannot forge messages (channels between attested peers, see DESIGN.md).
   The host may put a replica back to any state it was in before.  A call that
   crashes a replica has no effect here: a crashed replica is one that is never
   called again. *)
From Verif Require Import RaftLog Raft RaftSpec.

Definition rstate := (node * list entry)%type.   (* a replica, and its full log *)
Record net := Net {
  w_now : list (bytes * rstate);                 (* the replicas as they are *)
  w_past : list (bytes * rstate);                (* every state any replica was ever in *)
  w_soup : list (bytes * (option bytes * rmsg)); (* every message ever sent: from, to, what *)
  w_taken : list (bytes * (N * entry));          (* every entry handed out as committed *)
  w_rolled : pset                                (* the replicas that were ever put back *)
}.

Inductive event :=
| ECall (k : bytes) (o : rop)                                 (* the host or core calls replica k *)
| EDeliver (k : bytes) (j : nat) (ok1 ok2 : bool) (rnd : Z)   (* k receives message number j *)
| ERollback (k : bytes) (j : nat).                            (* k is put back to past state number j *)

Section Net.
Variable sz : sizes.
Variable hmac : bytes -> bytes -> bytes.

(* raft.cc entry points through Raft.v's rstep; core sends what SendableMessages
   returns (core.cc:1575-1607) *)
Definition act (k : bytes) (o : rop) (s : net) : net :=
  match lookup k (w_now s) with
  | Some (n, A) =>
      match rstep sz hmac n o with
      | Ret (n', a) =>
          let x := (n', regrow A (n_log n')) in
          Net (put k x (w_now s)) (w_past s ++ [(k, x)]) (w_soup s ++ map (pair k) (a_sent a))
              (w_taken s ++ match a_taken a with Some t => [(k, t)] | None => [] end) (w_rolled s)
      | Crash => s
      end
  | None => s
  end.
Definition net_step (s : net) (ev : event) : net :=
  match ev with
  | ECall k (OReceive _ _ _ _ _) => s
  | ECall k o => act k o s
  | EDeliver k j ok1 ok2 rnd =>
      match nth_error (w_soup s) j with
      | Some (from, (to, m)) =>
          if match to with Some p => beq p k | None => negb (beq from k) end
          then act k (OReceive ok1 ok2 rnd from m) s
          else s
      | None => s
      end
  | ERollback k j =>
      match nth_error (w_past s) j with
      | Some (k', x) => if beq k' k then Net (put k x (w_now s)) (w_past s) (w_soup s) (w_taken s) (pins k (w_rolled s)) else s
      | None => s
      end
  end.
Definition net_run (s : net) (evs : list event) : net := fold_left net_step evs s.

(* The start: every replica is constructed (raft.cc:19-53) with the same
   membership over a log known to be committed, of which it may lack the front. *)
Record seat := Seat { s_id : bytes; s_drop : nat; s_bytes : N; s_max : N; s_cfg : rconfig; s_ok : bool; s_rnd : Z }.
Definition seat_node (group : N) (M : members) (sm : N) (L0 : list entry) (x : seat) : outcome node :=
  new_node sz hmac group (s_id x) M (RLog (skipn (s_drop x) L0) (1 + N.of_nat (s_drop x)) (s_bytes x) (s_max x))
    (s_cfg x) true sm (s_ok x) (s_rnd x).
Fixpoint seated (group : N) (M : members) (sm : N) (L0 : list entry) (xs : list seat) : outcome (list (bytes * rstate)) :=
  match xs with
  | [] => Ret []
  | x :: xs' =>
      let* n := seat_node group M sm L0 x in
      let* r := seated group M sm L0 xs' in
      Ret ((s_id x, (n, regrow L0 (n_log n))) :: r)
  end.
Definition start (group : N) (M : members) (sm : N) (L0 : list entry) (xs : list seat) : outcome net :=
  let* p := seated group M sm L0 xs in
  Ret (Net (fold_right (fun kv m => put (fst kv) (snd kv) m) [] p) p [] [] []).
End Net.
