From Verif Require Import LocksSpec.
From Coq Require Import Lia Wellfounded.

(* ** The order of the locks *)
Definition rank (l : lock) : N :=
  match l with
  | LRead => 1 | LWrite => 2 | LRaft => 3 | LE2E => 4 | LLog => 4
  | LPeers => 5 | LPeer _ => 6 | LMin _ => 7
  | LConfig | LTimeout | LClients | LClient _ | LState _ | LClock => 8
  | LOut => 9
  end.
Fixpoint top (h : list lock) : N := match h with [] => 0 | l :: h' => N.max (rank l) (top h') end.

(* [h]: the locks held, the last one taken first.  A lock is only taken if it comes after
   all that are held, the last one taken is given back first, and none is kept. *)
Fixpoint ordered (h : list lock) (p : prog) : Prop :=
  match p with
  | Done => h = []
  | Lock l k => top h < rank l /\ ordered (l :: h) k
  | Unlock l k => match h with x :: h' => x = l /\ ordered h' k | [] => False end
  | Any k => forall n, ordered h (k n)
  | Op f k => forall d, ordered h (k (snd (f d)))
  | Exchange _ k => ordered h (k true)
  end.

Definition fine (r : N) (f : prog -> prog) : Prop := forall h k, top h < r -> ordered h k -> ordered h (f k).
Definition finer {A : Set} (r : N) (f : (A -> prog) -> prog) : Prop :=
  forall h k, top h < r -> (forall a, ordered h (k a)) -> ordered h (f k).

Lemma o_either h p q : ordered h p -> ordered h q -> ordered h (either p q).
Proof. intros Hp Hq [|n]; assumption. Qed.
Lemma o_decide h k : (forall b, ordered h (k b)) -> ordered h (decide k).
Proof. intros H. apply o_either; apply H. Qed.
Lemma o_maybe h f k : (forall k, ordered h k -> ordered h (f k)) -> ordered h k -> ordered h (maybe f k).
Proof. intros Hf Hk. apply o_either; auto. Qed.
Lemma o_times h f k : (forall k, ordered h k -> ordered h (f k)) -> ordered h k -> ordered h (times f k).
Proof. intros Hf Hk n. induction n; cbn; auto. Qed.
Lemma o_some h f : (forall p, ordered h (f p)) -> ordered h (some_id f).
Proof. intros Hf n. apply Hf. Qed.
Lemma o_each h f k : (forall p k, ordered h k -> ordered h (f p k)) -> ordered h k -> ordered h (each f k).
Proof. intros Hf. apply o_times. intros k' Hk'. apply o_some. intros p. apply Hf, Hk'. Qed.
Lemma o_op h (A : Set) (f : data -> data * A) k : (forall a, ordered h (k a)) -> ordered h (Op f k).
Proof. intros H d. apply H. Qed.
Lemma o_out : fine 9 out.
Proof. intros h k Ht Hk. cbn. repeat split; assumption. Qed.
Lemma o_log : fine 9 log.
Proof. intros h k Ht Hk. apply o_maybe; [intros; apply o_out; assumption|exact Hk]. Qed.
Lemma rank_out l : rank l < 9 \/ l = LOut.
Proof. destruct l; cbn; (left; reflexivity) || (right; reflexivity). Qed.
Lemma o_lockedr (A : Set) h l (body : (A -> prog) -> prog) k :
  top h < rank l -> rank l < 9 ->
  (forall ret, (forall a, ordered (l :: h) (ret a)) -> ordered (l :: h) (body ret)) ->
  (forall a, ordered h (k a)) -> ordered h (lockedr l body k).
Proof.
  intros Ht Hl Hb Hk. split; [exact Ht|].
  apply o_log; [cbn; lia|]. apply Hb. intros a. split; [reflexivity|apply Hk].
Qed.
Lemma o_locked h l body k :
  top h < rank l -> rank l < 9 ->
  (forall k, ordered (l :: h) k -> ordered (l :: h) (body k)) ->
  ordered h k -> ordered h (locked l body k).
Proof.
  intros Ht Hl Hb Hk. split; [exact Ht|].
  apply o_log; [cbn; lia|]. apply Hb. split; [reflexivity|apply Hk].
Qed.
Lemma o_touch h l k : top h < rank l -> rank l < 9 -> ordered h k -> ordered h (touch l k).
Proof. intros Ht Hl Hk. apply o_locked; auto. Qed.

Ltac ranks := cbn [top rank] in *; lia.
(* one layer *)
Ltac ord1 :=
  match goal with
  | |- forall _, _ => intro
  | H : ordered ?h ?k |- ordered ?h ?k => exact H
  | H : forall _, ordered ?h (?k _) |- ordered ?h (?k _) => apply H
  | H : forall _ : prog, ordered ?h _ -> ordered ?h (?f _) |- ordered ?h (?f _) => apply H
  | |- ordered _ (either _ _) => apply o_either
  | |- ordered _ (decide _) => apply o_decide
  | |- ordered _ (maybe _ _) => apply o_maybe
  | |- ordered _ (times _ _) => apply o_times
  | |- ordered _ (some_id _) => apply o_some
  | |- ordered _ (each _ _) => apply o_each
  | |- ordered _ (Op _ _) => apply o_op
  | |- ordered _ (out _) => apply o_out; [ranks|]
  | |- ordered _ (log _) => apply o_log; [ranks|]
  | |- ordered _ (reply _) => apply o_out; [ranks|]
  | |- ordered _ (lockedr _ _ _) => apply o_lockedr; [ranks|reflexivity| |]
  | |- ordered _ (locked _ _ _) => apply o_locked; [ranks|reflexivity| |]
  | |- ordered _ (touch _ _) => apply o_touch; [ranks|reflexivity|]
  | |- ordered _ (if ?b then _ else _) => destruct b
  | |- ordered _ (match ?x with Some _ => _ | None => _ end) => destruct x
  | |- ordered _ (let _ := _ in _) => cbv zeta
  end.
Class Fine (r : N) (f : prog -> prog) := fine_ok : fine r f.
Class Finer {A : Set} (r : N) (f : (A -> prog) -> prog) := finer_ok : finer r f.
Ltac ord2 :=
  match goal with
  | |- ordered _ (?f ?k) => eapply (fine_ok (f := f)); [ranks|]
  | |- ordered _ (?f ?k) => eapply (finer_ok (f := f)); [ranks|]
  end.
Ltac ord := repeat (ord1 || ord2).
Ltac fin := intros h k Ht Hk; ord.

#[export] Instance o_set_timeout : Fine 8 set_timeout.
Proof. intros h k Ht Hk. unfold set_timeout. ord. Qed.
#[export] Instance o_cancel_timeout : Fine 8 cancel_timeout.
Proof. intros h k Ht Hk. unfold cancel_timeout. ord. Qed.
#[export] Instance o_enclave_config : Fine 8 enclave_config.
Proof. intros h k Ht Hk. unfold enclave_config. ord. Qed.
#[export] Instance o_min_update (i : N) : Fine 7 (min_update i).
Proof. intros h k Ht Hk. unfold min_update. ord. Qed.
#[export] Instance o_min_current : Fine 7 min_current.
Proof. intros h k Ht Hk. unfold min_current. ord. Qed.
#[export] Instance o_min_check (i : N) : Finer 7 (min_check i).
Proof. intros h k Ht Hk. unfold min_check. ord. Qed.
#[export] Instance o_set_remote_time : Fine 8 set_remote_time.
Proof. intros h k Ht Hk. unfold set_remote_time. ord. Qed.
#[export] Instance o_get_time : Fine 8 get_time.
Proof. intros h k Ht Hk. unfold get_time. ord. Qed.
#[export] Instance o_peer_send (p : N) : Finer 6 (peer_send p).
Proof. intros h k Ht Hk. unfold peer_send. ord. Qed.
#[export] Instance o_peer_connect (p : N) : Finer 6 (peer_connect p).
Proof. intros h k Ht Hk. unfold peer_connect. ord. Qed.
#[export] Instance o_peer_accept (p : N) : Finer 6 (peer_accept p).
Proof. intros h k Ht Hk. unfold peer_accept. ord. Qed.
#[export] Instance o_peer_disconnect (p : N) : Fine 6 (peer_disconnect p).
Proof. intros h k Ht Hk. unfold peer_disconnect. ord. Qed.
#[export] Instance o_peer_state (p : N) : Finer 6 (peer_state p).
Proof. intros h k Ht Hk. unfold peer_state. ord. Qed.
#[export] Instance o_peer_too_old (p : N) : Fine 6 (peer_too_old p).
Proof. intros h k Ht Hk. unfold peer_too_old. ord. Qed.
#[export] Instance o_peer_status (p : N) : Fine 6 (peer_status p).
Proof. intros h k Ht Hk. unfold peer_status. ord. Qed.
#[export] Instance o_peer_check_minimums (p : N) (i : N) : Finer 6 (peer_check_minimums p i).
Proof. intros h k Ht Hk. unfold peer_check_minimums. ord. Qed.
#[export] Instance o_peer_recv (p : N) (m : peer_msg) : Finer 6 (peer_recv p m).
Proof. intros h k Ht Hk. unfold peer_recv. destruct m as [| |e| |]; [| |destruct e| |]; ord. Qed.
#[export] Instance o_pm_peer_state (p : N) : Finer 5 (pm_peer_state p).
Proof. intros h k Ht Hk. unfold pm_peer_state. ord. Qed.
#[export] Instance o_pm_refresh : Fine 5 pm_refresh.
Proof. intros h k Ht Hk. unfold pm_refresh. ord. Qed.
#[export] Instance o_pm_create : Fine 5 pm_create.
Proof. intros h k Ht Hk. unfold pm_create. ord. Qed.
#[export] Instance o_pm_get : Finer 5 pm_get.
Proof. intros h k Ht Hk. unfold pm_get. ord. Qed.
#[export] Instance o_pm_get_or_rst : Finer 5 pm_get_or_rst.
Proof. intros h k Ht Hk. unfold pm_get_or_rst. ord. Qed.
#[export] Instance o_pm_args : Fine 5 pm_args.
Proof. intros h k Ht Hk. unfold pm_args. ord. Qed.
#[export] Instance o_pm_connect (p : N) : Finer 5 (pm_connect p).
Proof. intros h k Ht Hk. unfold pm_connect. ord. Qed.
#[export] Instance o_pm_maybe_connect (p : N) : Finer 5 (pm_maybe_connect p).
Proof. intros h k Ht Hk. unfold pm_maybe_connect. ord. Qed.
#[export] Instance o_pm_reset (p : N) : Fine 5 (pm_reset p).
Proof. intros h k Ht Hk. unfold pm_reset. ord. Qed.
#[export] Instance o_send_to_peer (p : N) : Finer 5 (send_to_peer p).
Proof. intros h k Ht Hk. unfold send_to_peer. ord. Qed.
#[export] Instance o_recv_from_peer (p : N) (m : peer_msg) : Finer 5 (recv_from_peer p m).
Proof. intros h k Ht Hk. unfold recv_from_peer. destruct m; ord. Qed.
#[export] Instance o_connected_peers : Fine 5 connected_peers.
Proof. intros h k Ht Hk. unfold connected_peers. ord. Qed.
#[export] Instance o_all_peers : Fine 5 all_peers.
Proof. intros h k Ht Hk. unfold all_peers. ord. Qed.
#[export] Instance o_set_attestation_time : Fine 5 set_attestation_time.
Proof. intros h k Ht Hk. unfold set_attestation_time. ord. Qed.
#[export] Instance o_minimums_updated : Fine 5 minimums_updated.
Proof. intros h k Ht Hk. unfold minimums_updated. ord. Qed.
#[export] Instance o_check_peer_minimums (i : N) : Finer 5 (check_peer_minimums i).
Proof. intros h k Ht Hk. unfold check_peer_minimums. ord. Qed.
#[export] Instance o_pm_status (p : N) : Fine 5 (pm_status p).
Proof. intros h k Ht Hk. unfold pm_status. ord. Qed.
#[export] Instance o_client_args : Fine 8 client_args.
Proof. intros h k Ht Hk. unfold client_args. ord. Qed.
#[export] Instance o_new_client : Finer 8 new_client.
Proof. intros h k Ht Hk. unfold new_client. ord. Qed.
#[export] Instance o_get_client : Finer 8 get_client.
Proof. intros h k Ht Hk. unfold get_client. ord. Qed.
#[export] Instance o_remove_client : Fine 8 remove_client.
Proof. intros h k Ht Hk. unfold remove_client. ord. Qed.
#[export] Instance o_rotate_key : Fine 8 rotate_key.
Proof. intros h k Ht Hk. unfold rotate_key. ord. Qed.
#[export] Instance o_client_refresh : Fine 8 client_refresh.
Proof. intros h k Ht Hk. unfold client_refresh. ord. Qed.
#[export] Instance o_send_e2e_error (p : N) : Fine 5 (send_e2e_error p).
Proof. intros h k Ht Hk. unfold send_e2e_error. ord. Qed.
#[export] Instance o_run_client (c : N) : Fine 8 (run_client c).
Proof. intros h k Ht Hk. unfold run_client. ord. Qed.
#[export] Instance o_run_log (l : log_cb) : Fine 5 (run_log l).
Proof. intros h k Ht Hk. unfold run_log. destruct l; ord. Qed.
#[export] Instance o_add_log : Fine 4 add_log.
Proof. intros h k Ht Hk. unfold add_log. ord. Qed.
#[export] Instance o_run_logs : Fine 4 run_logs.
Proof. intros h k Ht Hk. unfold run_logs. unfold some_log_cb; ord. Qed.
#[export] Instance o_update_group_time : Fine 5 update_group_time.
Proof. intros h k Ht Hk. unfold update_group_time. ord. Qed.
#[export] Instance o_connect_to_members : Fine 5 connect_to_members.
Proof. intros h k Ht Hk. unfold connect_to_members. ord. Qed.
#[export] Instance o_raft_send_messages : Fine 5 raft_send_messages.
Proof. intros h k Ht Hk. unfold raft_send_messages. ord. Qed.
#[export] Instance o_membership_change : Fine 4 membership_change.
Proof. intros h k Ht Hk. unfold membership_change. ord. Qed.
#[export] Instance o_minimums_change : Fine 5 minimums_change.
Proof. intros h k Ht Hk. unfold minimums_change. ord. Qed.
#[export] Instance o_committed_entry : Fine 4 committed_entry.
Proof. intros h k Ht Hk. unfold committed_entry. ord. Qed.
#[export] Instance o_raft_committed : Fine 4 raft_committed.
Proof. intros h k Ht Hk. unfold raft_committed. ord. Qed.
#[export] Instance o_raft_step : Fine 4 raft_step.
Proof. intros h k Ht Hk. unfold raft_step. ord. Qed.

(* a callback of a part of a transfer, called with the error and raft_.mu held: it does not
   come to take the lock again unless the race is lost *)
#[export] Instance o_push_inline push to last next : Fine 5 (push_done push to last false next).
Proof. intros h k Ht Hk. unfold push_done. apply o_op. intros [|]; [exact Hk|]. cbn [ordered]. ord. Qed.
#[export] Instance o_run_inline c : Fine 5 (run_inline c).
Proof. intros h k Ht Hk. destruct c as [| | | | |[c|]|push to last]; cbn [run_inline]; ord. Qed.
#[export] Instance o_send_e2e to timeout c : Fine 4 (send_e2e to timeout c).
Proof.
  intros h k Ht Hk. unfold send_e2e. split; [exact Ht|].
  ord.
  - split; [reflexivity|exact Hk].
  - split; [reflexivity|exact Hk].
  - split; [reflexivity|]. ord.
Qed.
#[export] Instance o_send_next (push : N) (to : N) : Fine 4 (send_next push to).
Proof. intros h k Ht Hk. unfold send_next. ord. Qed.
#[export] Instance o_handle_replicate (p : N) : Fine 3 (handle_replicate p).
Proof. intros h k Ht Hk. unfold handle_replicate. ord. Qed.
#[export] Instance o_request_replication (p : N) : Fine 4 (request_replication p).
Proof. intros h k Ht Hk. unfold request_replication. ord. Qed.
#[export] Instance o_join_from (p : N) : Fine 4 (join_from p).
Proof. intros h k Ht Hk. unfold join_from. ord. Qed.
#[export] Instance o_request_membership : Fine 4 request_membership.
Proof. intros h k Ht Hk. unfold request_membership. ord. Qed.
#[export] Instance o_push_done push to last ok next : Fine 4 next -> Fine 3 (push_done push to last ok next).
Proof.
  intros Hn h k Ht Hk. unfold push_done. apply o_op. intros [|]; [exact Hk|].
  assert (Hr : ordered h (locked LRaft (fun k =>
    let more := either k (next k) in
    if last then Op (tell push) (fun first => if first then send_e2e_error to k else more) else more) k)) by ord.
  cbv zeta in *. destruct ok; [exact Hr|]. cbn [ordered]. ord.
Qed.
#[export] Instance o_run_cb (c : cb) (ok : bool) : Fine 3 (run_cb c ok).
Proof. intros h k Ht Hk. unfold run_cb. destruct c as [| |q| | |[c|]|push to last]; ord. Qed.
#[export] Instance o_send_timestamp (p : N) : Fine 4 (send_timestamp p).
Proof. intros h k Ht Hk. unfold send_timestamp. ord. Qed.
#[export] Instance o_send_timestamp_to_all : Fine 4 send_timestamp_to_all.
Proof. intros h k Ht Hk. unfold send_timestamp_to_all. ord. Qed.
Lemma o_cbs cs h k : top h < 3 -> ordered h k -> ordered h (fold_right (fun c k => run_cb c false k) k cs).
Proof. intros Ht Hk. induction cs as [|c cs IH]; cbn [fold_right]; [exact Hk|]. apply (o_run_cb c false); assumption. Qed.
#[export] Instance o_reset_peer p : Fine 3 (reset_peer p).
Proof. intros h k Ht Hk. unfold reset_peer. ord. apply o_cbs; assumption. Qed.
#[export] Instance o_raft_write (client : option N) : Finer 3 (raft_write client).
Proof. intros h k Ht Hk. unfold raft_write. ord. Qed.
#[export] Instance o_run_timeout : Fine 3 run_timeout.
Proof. intros h k Ht Hk. unfold run_timeout. ord. Qed.
#[export] Instance o_timer_tick : Fine 3 timer_tick.
Proof. intros h k Ht Hk. unfold timer_tick. ord. Qed.
#[export] Instance o_handle_peer_connect (p : N) : Fine 3 (handle_peer_connect p).
Proof. intros h k Ht Hk. unfold handle_peer_connect. ord. Qed.
#[export] Instance o_handle_push : Fine 3 handle_push.
Proof. intros h k Ht Hk. unfold handle_push. ord. Qed.
#[export] Instance o_handle_log_request : Fine 3 handle_log_request.
Proof. intros h k Ht Hk. unfold handle_log_request. ord. Qed.
#[export] Instance o_handle_time : Fine 3 handle_time.
Proof. intros h k Ht Hk. unfold handle_time. ord. Qed.
#[export] Instance o_handle_removal (p : N) : Fine 3 (handle_removal p).
Proof. intros h k Ht Hk. unfold handle_removal. ord. Qed.
#[export] Instance o_handle_request (p : N) (r : request) : Fine 3 (handle_request p r).
Proof. intros h k Ht Hk. unfold handle_request. destruct r; ord. Qed.
#[export] Instance o_handle_e2e (p : N) (m : e2e) : Fine 3 (handle_e2e p m).
Proof. intros h k Ht Hk. unfold handle_e2e. destruct m; ord. Qed.
#[export] Instance o_handle_client (c : N) : Fine 3 (handle_client c).
Proof. intros h k Ht Hk. unfold handle_client. ord. Qed.
#[export] Instance o_handle_create : Fine 3 handle_create.
Proof. intros h k Ht Hk. unfold handle_create. ord. Qed.
#[export] Instance o_handle_join (p : N) : Fine 3 (handle_join p).
Proof. intros h k Ht Hk. unfold handle_join. ord. Qed.
#[export] Instance o_handle_refresh (rotate : bool) : Fine 3 (handle_refresh rotate).
Proof. intros h k Ht Hk. unfold handle_refresh. ord. Qed.
#[export] Instance o_handle_status : Fine 3 handle_status.
Proof. intros h k Ht Hk. unfold handle_status. ord. Qed.
#[export] Instance o_handle_reconfigure : Fine 3 handle_reconfigure.
Proof. intros h k Ht Hk. unfold handle_reconfigure. ord. Qed.
#[export] Instance o_handle_relinquish : Fine 3 handle_relinquish.
Proof. intros h k Ht Hk. unfold handle_relinquish. ord. Qed.
#[export] Instance o_ask_leader : Fine 3 ask_leader.
Proof. intros h k Ht Hk. unfold ask_leader. ord. Qed.
#[export] Instance o_handle_minimums : Fine 3 handle_minimums.
Proof. intros h k Ht Hk. unfold handle_minimums. ord. Qed.
Lemma o_handler m : m <> MWriter -> fine 3 (handler m).
Proof. intros Hm h k Ht Hk. destruct m; cbn [handler]; ord. contradiction. Qed.
Theorem o_serve m : ordered [] (serve m).
Proof.
  destruct (match m with MWriter => true | _ => false end) eqn:E.
  { destruct m; try discriminate. cbn. repeat split; reflexivity. }
  assert (Hm : m <> MWriter) by (intros ->; discriminate).
  assert (H : ordered [] (touch LRead (handler m (out Done)))).
  { apply o_touch; [reflexivity|reflexivity|]. apply o_handler; [exact Hm|reflexivity|].
    apply o_out; reflexivity. }
  destruct m; try exact H. contradiction.
Qed.
