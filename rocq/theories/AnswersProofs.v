From Verif Require Import AnswersSpec.
From Coq Require Import Lia.

(* what is known of a number that no request to join has: the callbacks of joining have
   other numbers *)
Definition log_free (t : N) (l : on_log) : Prop := match l with LMember tx _ => tx <> t | _ => True end.
Definition peer_free (t : N) (c : on_peer) : Prop :=
  match c with PGetRaft tx _ | PLoad tx | PMember tx _ => tx <> t | PWrite l => log_free t l | _ => True end.
Definition st_free (t : N) (s : raft) : Prop := match s with Waiting _ tx | Loading tx _ => tx <> t | _ => True end.
Definition free (t : N) (w : world) : Prop :=
  st_free t (st w) /\ Forall (fun x => peer_free t (snd (snd x))) (calls w) /\
  Forall (fun x => log_free t (snd x)) (waits w) /\ Forall (fun x => snd x <> t) (timers w) /\
  NoDup (map fst (calls w)) /\ Forall (fun x => fst x <= next w) (calls w).

Definition is_n (t : N) (x : option N) : bool := match x with Some y => y =? t | None => false end.
Definition one (t : N) (x : option N) : nat := if is_n t x then 1 else 0.
Definition owed (t : N) (w : world) : nat :=
  length (filter (fun x => is_n t (peer_number (snd (snd x)))) (calls w)) + length (filter (fun x => is_n t (log_number (snd x))) (waits w)).
Definition weight (t : N) (w : world) : nat := answers t w + owed t w.

Lemma length_filter_map {A B} (f : B -> bool) (g : A -> B) l : length (filter f (map g l)) = length (filter (fun x => f (g x)) l).
Proof. induction l as [|x l IH]; cbn; [reflexivity|]. destruct (f (g x)); cbn; rewrite IH; reflexivity. Qed.
Lemma waiting_owed t w : waiting t w = owed t w.
Proof.
  unfold waiting, owed, pending. rewrite filter_app, app_length, !length_filter_map. reflexivity.
Qed.

(* [f] adds [n] to the weight of [t] *)
Definition adds (t : N) (n : nat) (f : world -> world) : Prop :=
  forall w, free t w -> free t (f w) /\ (dead w = true -> dead (f w) = true) /\ weight t (f w) = (n + weight t w)%nat.

Lemma a_id t : adds t 0 (fun w => w).
Proof. intros w H. auto. Qed.
Lemma a_comp t n m f g : adds t n f -> adds t m g -> adds t (n + m) (fun w => f (g w)).
Proof.
  intros Hf Hg w H. destruct (Hg w H) as (A & B & C). destruct (Hf _ A) as (A' & B' & C').
  split; [exact A'|]. split; [auto|]. lia.
Qed.
Lemma a_set_ch t c : adds t 0 (set_ch c).
Proof. intros w H. auto. Qed.
Lemma a_pick t n k : (forall i, adds t n (k i)) -> adds t n (pick k).
Proof.
  intros H w Hw. unfold pick. destruct (ch w) as [|i r]; [apply H, Hw|]. apply (H i (set_ch r w)). exact Hw.
Qed.
Lemma a_either t n a b : adds t n a -> adds t n b -> adds t n (either a b).
Proof. intros Ha Hb. apply a_pick. intros [|i]; assumption. Qed.
Lemma a_some_peer t n k : (forall p, adds t n (k p)) -> adds t n (some_peer k).
Proof. intros H. apply a_pick. intros i. apply H. Qed.
Lemma a_say t tx : adds t (one t (Some tx)) (say tx).
Proof.
  intros w H. split; [exact H|]. split; [auto|]. unfold weight, answers, owed, say, one. cbn [said calls waits is_n].
  rewrite count_occ_app. cbn [count_occ]. destruct (N.eq_dec tx t) as [->|Hn].
  - rewrite N.eqb_refl. lia.
  - destruct (N.eqb_spec tx t); [congruence|]. lia.
Qed.
Lemma a_say0 t tx : tx <> t -> adds t 0 (say tx).
Proof. intros H. pose proof (a_say t tx) as A. unfold one in A. cbn in A. destruct (N.eqb_spec tx t); [congruence|exact A]. Qed.

Lemma a_set_timers0 t l w : free t w -> Forall (fun x => snd x <> t) l -> free t (set_timers l w) /\ (dead w = true -> dead (set_timers l w) = true) /\ weight t (set_timers l w) = weight t w.
Proof. intros (A & B & C & D & E) H. split; [repeat (split; [assumption|]); exact E|]. auto. Qed.
Lemma Forall_filter {A} (P : A -> Prop) f l : Forall P l -> Forall P (filter f l).
Proof. rewrite !Forall_forall. intros H x Hx. apply filter_In in Hx. apply H, Hx. Qed.
Lemma a_cancel t c : adds t 0 (cancel_timer c).
Proof.
  apply a_either; [apply a_id|]. intros w H. apply a_set_timers0; [exact H|]. apply Forall_filter, H.
Qed.
Lemma a_run_log t l ok : log_free t l -> adds t (one t (log_number l)) (run_log l ok).
Proof.
  intros Hl. destruct l as [tx|tx|tx c|]; cbn [run_log log_number].
  - apply a_either; apply a_say.
  - apply a_say.
  - replace (one t (Some tx)) with (one t (Some tx) + 0)%nat by lia.
    apply (a_comp t _ _ (say tx) (fun w => if ok then cancel_timer c w else w)); [apply a_say|]. destruct ok; [apply a_cancel|apply a_id].
  - apply a_id.
Qed.
Lemma a_add_log t i l : log_free t l -> adds t (one t (log_number l)) (add_log i l).
Proof.
  intros Hl w (A & B & C & D & E). split; [split; [exact A|split; [exact B|split; [constructor; assumption|split; [exact D|exact E]]]]|]. split; [auto|].
  unfold weight, answers, owed, add_log, one. cbn [said calls waits set_waits filter snd]. destruct (is_n t (log_number l)); cbn [length]; lia.
Qed.
Lemma a_somewhere t l : log_free t l -> adds t (one t (log_number l)) (add_log_somewhere l).
Proof. intros Hl. apply a_pick. intros i. apply a_add_log, Hl. Qed.

(* the callbacks: what they owe is paid; those of joining have other numbers *)
Lemma a_fail t c : peer_free t c -> adds t (one t (peer_number c)) (fail c).
Proof.
  intros Hc. destruct c as [tx|l|tx p|tx|tx c|]; cbn [fail peer_number]; cbn in Hc; try apply a_say; try apply a_id.
  - apply a_run_log, Hc.
  - unfold one. cbn. destruct (N.eqb_spec tx t); [congruence|]. apply a_id.
Qed.
Lemma a_send t to c : peer_free t c -> adds t (one t (peer_number c)) (send to c).
Proof.
  intros Hc w Hw. unfold send. set (w1 := World _ _ _ _ _ _ _ _ _).
  destruct Hw as (A & B & C & D & E & F).
  assert (F1 : Forall (fun x => fst x < next w1) (calls w)) by (eapply Forall_impl; [|exact F]; cbn; intros; lia).
  assert (Hw1 : free t w1).
  { repeat (split; [assumption|]). eapply Forall_impl; [|exact F1]. intros x Hx. apply N.lt_le_incl, Hx. }
  assert (Hadd : forall x, calls x = calls w -> next x = next w1 -> free t x -> free t (set_calls ((next x, (to, c)) :: calls x) x)).
  { intros x Hx1 Hx2 (A' & B' & C' & D' & E' & F'). split; [exact A'|]. split; [constructor; assumption|]. split; [exact C'|]. split; [exact D'|].
    split.
    - cbn [calls set_calls map fst]. constructor; [|exact E']. rewrite Hx1, Hx2. intros H. apply in_map_iff in H as (y & Hy & Hin).
      rewrite Forall_forall in F1. specialize (F1 y Hin). lia.
    - cbn [calls next set_calls]. constructor; [cbn; lia|exact F']. }
  assert (Hput : forall x, weight t (set_calls ((next x, (to, c)) :: calls x) x) = (one t (peer_number c) + weight t x)%nat).
  { intros x. unfold weight, answers, owed, one. cbn [said calls waits set_calls filter snd]. destruct (is_n t (peer_number c)); cbn [length]; lia. }
  unfold either, pick. destruct (ch w1) as [|[|n] r].
  - split; [apply Hadd; auto|]. split; [auto|]. exact (Hput w1).
  - split; [apply (Hadd (set_ch r w1)); auto|]. split; [auto|]. exact (Hput (set_ch r w1)).
  - exact (a_fail t c Hc (set_ch r w1) Hw1).
Qed.
Lemma a_send0 t to c : peer_free t c -> peer_number c <> Some t -> adds t 0 (send to c).
Proof.
  intros Hc Hn. pose proof (a_send t to c Hc) as A. unfold one in A. destruct (peer_number c) as [x|]; cbn in A; [|exact A].
  destruct (N.eqb_spec x t); [congruence|exact A].
Qed.
Lemma a_set_st t s : st_free t s -> adds t 0 (set_st s).
Proof. intros Hs w (A & B & C & D & E). split; [split; [exact Hs|repeat (split; [assumption|]); exact E]|]. auto. Qed.

Lemma a_request_replication t : adds t 0 request_replication.
Proof.
  intros w Hw. unfold request_replication. destruct (st w) as [| |tx started| |] eqn:E; try (split; [exact Hw|auto]; fail).
  assert (Htx : tx <> t) by (destruct Hw as (A & _); rewrite E in A; exact A).
  assert (H : adds t 0 (fun w => some_peer (fun from => send from (PLoad tx)) (set_st (Loading tx true) w))).
  { apply (a_comp t 0 0 _ (set_st (Loading tx true))); [|apply a_set_st; exact Htx].
    apply a_some_peer. intros p. apply a_send0; [exact Htx|cbn; congruence]. }
  destruct started; [apply (H w Hw)|]. apply a_either; [apply a_id|exact H|exact Hw].
Qed.
Lemma a_ask_members t tx c n : tx <> t -> adds t 0 (ask_members tx c n).
Proof.
  intros Htx. induction n as [|n IH]; [apply a_id|]. cbn [ask_members].
  apply (a_comp t 0 0 (ask_members tx c n) (some_peer (fun p => send p (PMember tx c)))); [exact IH|].
  apply a_some_peer. intros p. apply a_send0; [exact Htx|cbn; congruence].
Qed.
Lemma a_request_membership t tx : tx <> t -> adds t 0 (request_membership tx).
Proof.
  intros Htx w Hw. unfold request_membership, set_timer. set (w1 := World _ _ _ _ _ _ _ _ _).
  refine (a_pick t 0 (fun n => ask_members tx (next_timer w) n) (fun n => a_ask_members t tx _ n Htx) w1 _).
  destruct Hw as (A & B & C & D & E). split; [exact A|split; [exact B|split; [exact C|split; [constructor; assumption|exact E]]]].
Qed.
Lemma a_join_from_first t : adds t 0 join_from_first.
Proof.
  intros w Hw. unfold join_from_first. destruct (st w) as [|p tx| | |] eqn:E; try (split; [exact Hw|auto]; fail).
  assert (Htx : tx <> t) by (destruct Hw as (A & _); rewrite E in A; exact A).
  apply a_send0; [exact Htx|cbn; congruence|exact Hw].
Qed.
Lemma a_got_raft t tx : tx <> t -> adds t 0 (got_raft tx).
Proof.
  intros Htx w Hw. unfold got_raft. destruct (st w); try (apply (a_say0 t tx Htx w Hw)).
  apply a_either; [apply a_say0, Htx| |exact Hw].
  apply (a_comp t 0 0 request_replication (set_st (Loading tx false))); [apply a_request_replication|apply a_set_st; exact Htx].
Qed.
Lemma a_loaded t tx : tx <> t -> adds t 0 (loaded tx).
Proof.
  intros Htx. apply a_either; [apply a_say0, Htx|]. intros w Hw. destruct (st w) as [| |tx' b| |] eqn:E; try (split; [exact Hw|auto]; fail).
  assert (Htx' : tx' <> t) by (destruct Hw as (A & _); rewrite E in A; exact A).
  apply (a_comp t 0 0 (request_membership tx') (set_st Requesting)); [apply a_request_membership, Htx'|apply a_set_st; exact I|exact Hw].
Qed.
Lemma one_ne t tx : tx <> t -> one t (Some tx) = O.
Proof. intros H. unfold one. cbn. destruct (N.eqb_spec tx t); [congruence|reflexivity]. Qed.
Lemma a_succeed t c : peer_free t c -> adds t (one t (peer_number c)) (succeed c).
Proof.
  intros Hc. destruct c as [tx|l|tx p|tx|tx c|]; cbn [succeed peer_number]; cbn in Hc.
  - apply a_say.
  - apply a_either; [apply a_run_log, Hc|apply a_somewhere, Hc].
  - rewrite one_ne by exact Hc. apply a_got_raft, Hc.
  - rewrite one_ne by exact Hc. apply a_loaded, Hc.
  - apply (a_somewhere t (LMember tx c)). exact Hc.
  - apply a_id.
Qed.
Lemma a_run_peer t c ok : peer_free t c -> adds t (one t (peer_number c)) (run_peer c ok).
Proof. intros Hc. destruct ok; [apply a_succeed, Hc|apply a_fail, Hc]. Qed.

(* taking a call out *)
Lemma NoDup_fst_filter {A} (f : N * A -> bool) l : NoDup (map fst l) -> NoDup (map fst (filter f l)).
Proof.
  induction l as [|x l IH]; [auto|]. cbn. intros H. inversion H as [|? ? Hx Hl]; subst. destruct (f x); cbn; [constructor|]; auto.
  intros Hin. apply Hx. apply in_map_iff in Hin as (y & <- & Hy). apply filter_In in Hy as [Hy _]. apply in_map, Hy.
Qed.
Lemma free_filter_calls t f w : free t w -> free t (set_calls (filter f (calls w)) w).
Proof.
  intros (A & B & C & D & E & F). split; [exact A|]. split; [apply Forall_filter, B|]. split; [exact C|]. split; [exact D|].
  split; [apply NoDup_fst_filter, E|apply Forall_filter, F].
Qed.
Definition sum_calls (t : N) (l : list (N * (N * on_peer))) : nat := length (filter (fun x => is_n t (peer_number (snd (snd x)))) l).
Lemma sum_cons t x l : sum_calls t (x :: l) = (one t (peer_number (snd (snd x))) + sum_calls t l)%nat.
Proof. unfold sum_calls, one. cbn. destruct (is_n t (peer_number (snd (snd x)))); reflexivity. Qed.
Lemma sum_split t f l : (sum_calls t (filter f l) + sum_calls t (filter (fun x => negb (f x)) l) = sum_calls t l)%nat.
Proof.
  induction l as [|x l IH]; [reflexivity|]. cbn [filter]. destruct (f x); cbn [negb]; rewrite ?sum_cons; lia.
Qed.
Lemma filter_one {A} n (x : N * A) l : NoDup (map fst l) -> find (fun x => fst x =? n) l = Some x -> filter (fun x => fst x =? n) l = [x].
Proof.
  induction l as [|y l IH]; [discriminate|]. cbn. intros Hn. inversion Hn as [|? ? Hy Hl]; subst.
  destruct (N.eqb_spec (fst y) n) as [E|E]; [|auto]. intros H. injection H as ->. f_equal.
  assert (H : filter (fun x => fst x =? n) l = []); [|exact H].
  clear -Hy E. induction l as [|z l IH]; [reflexivity|]. cbn in *. destruct (N.eqb_spec (fst z) n) as [E'|E']; [exfalso; apply Hy; left; congruence|].
  apply IH. intros H. apply Hy. right. exact H.
Qed.
Lemma take_call_spec t n w to c w' : free t w -> take_call n w = (Some (to, c), w') ->
  free t w' /\ dead w' = dead w /\ peer_free t c /\ weight t w = (one t (peer_number c) + weight t w')%nat.
Proof.
  intros Hw. unfold take_call. destruct (find _ (calls w)) as [[m c0]|] eqn:E; [|discriminate]. intros H. injection H as -> <-.
  assert (Hf := filter_one n _ _ (proj1 (proj2 (proj2 (proj2 (proj2 Hw))))) E).
  split; [apply free_filter_calls, Hw|]. split; [reflexivity|]. split.
  - apply find_some in E as [E _]. destruct Hw as (_ & B & _). rewrite Forall_forall in B. apply (B _ E).
  - unfold weight, answers, owed. cbn [said calls waits set_calls].
    pose proof (sum_split t (fun x => fst x =? n) (calls w)) as Hs. rewrite Hf, sum_cons in Hs. unfold sum_calls in Hs. cbn [snd filter length] in Hs. lia.
Qed.
Lemma take_call_none n w w' : take_call n w = (None, w') -> w' = w.
Proof. unfold take_call. destruct (find _ (calls w)) as [[m c0]|]; [discriminate|congruence]. Qed.

Lemma a_response t n from ok : adds t 0 (response n from ok).
Proof.
  intros w Hw. unfold response. destruct (take_call n w) as [[[to c]|] w'] eqn:E; [|apply take_call_none in E; subst; split; auto].
  destruct (to =? from); [|split; auto]. destruct (take_call_spec t n w to c w' Hw E) as (A & B & C & D).
  destruct (a_run_peer t c ok C w' A) as (X & Y & Z). split; [exact X|]. split; [rewrite <- B; exact Y|]. lia.
Qed.
Lemma a_timed_out t n : adds t 0 (timed_out n).
Proof.
  intros w Hw. unfold timed_out. destruct (take_call n w) as [[[to c]|] w'] eqn:E; [|apply take_call_none in E; subst; split; auto].
  destruct (take_call_spec t n w to c w' Hw E) as (A & B & C & D).
  destruct (a_fail t c C w' A) as (X & Y & Z). split; [exact X|]. split; [rewrite <- B; exact Y|]. lia.
Qed.
Lemma a_fails t l : Forall (fun x => peer_free t (snd (snd x))) l -> adds t (sum_calls t l) (fold_left (fun w (x : N * (N * on_peer)) => fail (snd (snd x)) w) l).
Proof.
  induction l as [|x l IH]; intros H; [apply a_id|]. inversion H as [|? ? Hx Hl]; subst. rewrite sum_cons, Nat.add_comm.
  exact (a_comp t _ _ _ (fail (snd (snd x))) (IH Hl) (a_fail t _ Hx)).
Qed.
Lemma a_reset_peer t p : adds t 0 (reset_peer p).
Proof.
  intros w Hw. unfold reset_peer. set (l := filter _ _). set (w1 := set_calls _ w).
  assert (Hl : Forall (fun x => peer_free t (snd (snd x))) l) by (apply Forall_filter, Hw).
  destruct (a_fails t l Hl w1) as (X & Y & Z); [apply free_filter_calls, Hw|]. split; [exact X|]. split; [exact Y|]. rewrite Z.
  pose proof (sum_split t (fun x => fst (snd x) =? p) (calls w)) as Hs. unfold l, w1, weight, answers, owed. cbn [said calls waits set_calls].
  unfold sum_calls in *. lia.
Qed.

(* the log *)
Definition sum_logs (t : N) (l : list (N * on_log)) : nat := length (filter (fun x => is_n t (log_number (snd x))) l).
Lemma sumw_cons t x l : sum_logs t (x :: l) = (one t (log_number (snd x)) + sum_logs t l)%nat.
Proof. unfold sum_logs, one. cbn. destruct (is_n t (log_number (snd x))); reflexivity. Qed.
Lemma sumw_split t f l : (sum_logs t (filter f l) + sum_logs t (filter (fun x => negb (f x)) l) = sum_logs t l)%nat.
Proof.
  induction l as [|x l IH]; [reflexivity|]. cbn [filter]. destruct (f x); cbn [negb]; rewrite ?sumw_cons; lia.
Qed.
Lemma a_run_logs t l : forall ok, Forall (fun x => log_free t (snd x)) l -> adds t (sum_logs t l) (run_logs l ok).
Proof.
  induction l as [|x l IH]; intros ok H; [apply a_id|]. inversion H as [|? ? Hx Hl]; subst. rewrite sumw_cons, Nat.add_comm.
  exact (a_comp t _ _ _ (run_log (snd x) (hd false ok)) (IH (tl ok) Hl) (a_run_log t _ _ Hx)).
Qed.
Lemma free_waits t l w : Forall (fun x => log_free t (snd x)) l -> free t w -> free t (set_waits l w).
Proof. intros H (A & B & C & D & E). split; [exact A|]. split; [exact B|]. split; [exact H|]. split; [exact D|exact E]. Qed.
Lemma a_committed t idx ok : adds t 0 (committed idx ok).
Proof.
  intros w Hw. unfold committed. set (l := filter _ _). set (w1 := set_waits _ w).
  assert (Hl : Forall (fun x => log_free t (snd x)) l) by (apply Forall_filter, Hw).
  destruct (a_run_logs t l ok Hl w1) as (X & Y & Z); [apply free_waits; [apply Forall_filter, Hw|exact Hw]|]. split; [exact X|]. split; [exact Y|]. rewrite Z.
  pose proof (sumw_split t (fun x => fst x =? idx) (waits w)) as Hs. unfold l, w1, weight, answers, owed. cbn [said calls waits set_waits].
  unfold sum_logs in *. lia.
Qed.
Lemma a_removed t : adds t 0 removed.
Proof.
  intros w Hw. unfold removed. destruct (st w); try (split; auto; fail).
  assert (Hl := proj1 (proj2 (proj2 Hw))). set (w1 := set_waits [] _).
  destruct (a_run_logs t (waits w) [] Hl w1) as (X & Y & Z).
  { apply free_waits; [constructor|]. apply a_set_st; [exact I|exact Hw]. }
  split; [exact X|]. split; [exact Y|]. rewrite Z. unfold w1, weight, answers, owed, sum_logs. cbn [said calls waits set_waits set_st filter length]. lia.
Qed.
Lemma a_added t : adds t 0 added.
Proof. intros w Hw. unfold added. destruct (st w); try (split; auto; fail). apply a_set_st; [exact I|exact Hw]. Qed.
Lemma a_connected t p : adds t 0 (connected p).
Proof.
  assert (H : adds t 0 (fun w => match st w with Loading _ false => request_replication w | Waiting p' _ => if p =? p' then join_from_first w else w | _ => w end)).
  { intros w Hw. destruct (st w) as [|p' tx|tx [|]| |]; try (split; auto; fail).
    - destruct (p =? p'); [apply a_join_from_first, Hw|split; auto].
    - apply a_request_replication, Hw. }
  refine (a_comp t 0 0 _ (send p POther) H _). apply a_send0; [exact I|discriminate].
Qed.
Lemma a_member_timeout t c : adds t 0 (member_timeout c).
Proof.
  intros w Hw. unfold member_timeout. destruct (find _ (timers w)) as [[m tx]|] eqn:E; [|split; auto].
  apply find_some in E as [E _]. set (w1 := set_timers _ w).
  assert (H1 : free t w1 /\ (dead w = true -> dead w1 = true) /\ weight t w1 = weight t w) by (apply a_set_timers0; [exact Hw|apply Forall_filter, Hw]).
  assert (Htx : tx <> t). { destruct Hw as (_ & _ & _ & D & _). rewrite Forall_forall in D. apply (D _ E). }
  destruct H1 as (A & B & C). destruct (st w1); try (split; auto; fail).
  destruct (a_request_membership t tx Htx w1 A) as (X & Y & Z). split; [exact X|]. split; [auto|]. lia.
Qed.

(* the requests *)
Lemma a_raft_write t n l k : log_free t l ->
  (forall b : bool, adds t (if b then (n - one t (log_number l))%nat else n) (k b)) -> (one t (log_number l) <= n)%nat -> adds t n (raft_write l k).
Proof.
  intros Hl Hk Hn w Hw. unfold raft_write. destruct (st w); try (apply (Hk false w Hw)).
  revert w Hw. change (adds t n (pick (fun n w => match n with O => k false w | S O => k true (add_log_somewhere l w) | _ => k true (some_peer (fun leader => send leader (PWrite l)) w) end))).
  apply a_pick. intros [|[|i]].
  - apply (Hk false).
  - replace n with ((n - one t (log_number l)) + one t (log_number l))%nat by lia.
    refine (a_comp t _ _ (k true) _ (Hk true) (a_somewhere t l Hl)).
  - replace n with ((n - one t (log_number l)) + one t (log_number l))%nat by lia.
    refine (a_comp t _ _ (k true) _ (Hk true) _). apply a_some_peer. intros p. apply (a_send t p (PWrite l)). exact Hl.
Qed.
Lemma a_unless t tx (b : bool) : adds t (if b then 0%nat else one t (Some tx)) (if b : bool then (fun w => w) else say tx).
Proof. destruct b; [apply a_id|apply a_say]. Qed.
Lemma a_unless' t tx (b : bool) : adds t (if b then (one t (Some tx) - one t (Some tx))%nat else one t (Some tx)) (fun w => if b : bool then w else say tx w).
Proof. rewrite Nat.sub_diag. destruct b; [apply a_id|apply a_say]. Qed.
Lemma a_write_unless t tx l : log_number l = Some tx -> log_free t l -> adds t (one t (Some tx)) (raft_write l (fun (ok : bool) w => if ok then w else say tx w)).
Proof. intros H Hl. apply a_raft_write; [exact Hl| |rewrite H; lia]. intros b. rewrite H. apply a_unless'. Qed.
Lemma a_say_then t tx : adds t (one t (Some tx)) (fun w => say tx w).
Proof. apply a_say. Qed.

Lemma a_request t tx q : tx <> 0 -> (is_join q = true -> tx <> t) -> no_request q = false -> adds t (if is_join q then 0%nat else one t (Some tx)) (request tx q).
Proof.
  intros H0 Hj Hu. unfold request. destruct (N.eqb_spec tx 0) as [|_]; [contradiction|].
  destruct q as [ | | | |p|p| | | | | | | | | | |p| | | | ]; cbn [is_join no_request] in *; try discriminate; try apply a_say_then; try (apply a_either; apply a_say; fail).
  - unfold existing_client. repeat (apply a_either; [first [apply a_say|apply (a_unless t tx false)]|]).
    apply (a_write_unless t tx (LClient tx)); [reflexivity|exact I].
  - intros w Hw. unfold create. destruct (st w); try (apply a_say, Hw). apply a_either; [apply a_say| |exact Hw].
    rewrite <- (Nat.add_0_r (one t (Some tx))). refine (a_comp t _ 0 (say tx) (set_st Part) (a_say t tx) _). apply a_set_st. exact I.
  - specialize (Hj eq_refl). intros w Hw. unfold join. 
    assert (H : adds t 0 (either (say tx) (fun w => either (fun w => w) join_from_first (set_st (Waiting p tx) w)))).
    { apply a_either; [apply a_say0, Hj|]. refine (a_comp t 0 0 (either (fun w => w) join_from_first) (set_st (Waiting p tx)) _ _).
      - apply a_either; [apply a_id|apply a_join_from_first].
      - apply a_set_st. exact Hj. }
    destruct (st w); try (apply H, Hw). apply a_say0; assumption.
  - apply a_either; [apply a_say|]. apply (a_send t p (PReply tx)). exact I.
  - intros w Hw. unfold ask_leader. destruct (st w); try (apply a_say, Hw). apply a_either; [apply a_say| |exact Hw].
    apply a_either; [apply a_say|]. apply a_some_peer. intros l. apply (a_send t l (PReply tx)). exact I.
  - unfold database. apply a_either; [apply (a_unless t tx false)|]. apply (a_write_unless t tx (LReply tx)); [reflexivity|exact I].
  - intros w Hw. unfold relinquish. destruct (st w); try (apply a_say, Hw). apply a_either; [apply a_say| |exact Hw]. apply (a_somewhere t (LReply tx)). exact I.
  - intros w Hw. unfold ask_leader. destruct (st w); try (apply a_say, Hw). apply a_either; [apply a_say| |exact Hw].
    apply a_either; [apply a_say|]. apply a_some_peer. intros l. apply (a_send t l (PReply tx)). exact I.
  - intros w Hw. unfold hashes. destruct (st w); try (apply a_say, Hw); apply a_either; try apply a_say; exact Hw.
  - apply a_either; [apply a_say|]. rewrite <- (Nat.add_0_r (one t (Some tx))). refine (a_comp t _ 0 (say tx) (reset_peer p) (a_say t tx) _). apply a_reset_peer.
  - unfold minimums. repeat (apply a_either; [apply a_say|]). apply (a_write_unless t tx (LReply tx)); [reflexivity|exact I].
Qed.

(* all events *)
Definition counts (t : N) (x : N * kind) : bool := (fst x =? t) && negb (fst x =? 0) && negb (no_request (snd x)) && negb (is_join (snd x)).
Definition cnt (t : N) (l : list (N * kind)) : nat := length (filter (counts t) l).
Definition not_joining (t : N) (es : list (event * list nat)) : Prop := forall p, ~ In (t, QJoin p) (asked es).

Lemma a_step t e : (forall p, fst e <> ERequest t (QJoin p)) -> forall w, dead w = false -> free t w ->
  free t (step w e) /\ weight t (step w e) = (cnt t (asked [e]) + weight t w)%nat.
Proof.
  intros Hj w Hd Hw. unfold step. rewrite Hd.
  assert (H : forall f, adds t 0 f -> free t (f (set_ch (snd e) w)) /\ weight t (f (set_ch (snd e) w)) = (0 + weight t w)%nat).
  { intros f Hf. destruct (Hf (set_ch (snd e) w) Hw) as (A & _ & C). split; [exact A|exact C]. }
  destruct e as [e c]. cbn [fst snd] in *. unfold asked. cbn [flat_map fst app].
  destruct e as [tx q|n from ok|n|n|p|p|idx ok| | | |]; cbn [app].
  - unfold cnt. cbn [filter length]. unfold counts. cbn [fst snd].
    destruct (N.eqb_spec tx 0) as [->|H0].
    { unfold request. cbn [N.eqb negb andb]. rewrite andb_false_r. cbn. exact (conj Hw eq_refl). }
    destruct (no_request q) eqn:Hu.
    { destruct q; try discriminate. unfold request. destruct (N.eqb_spec tx 0); [contradiction|]. cbn [negb andb]. rewrite andb_false_r. cbn. exact (conj Hw eq_refl). }
    assert (Hjt : is_join q = true -> tx <> t) by (intros Hq ->; destruct q as [| | | |p| | | | | | | | | | | | | | | |]; try discriminate; apply (Hj p); reflexivity).
    destruct (a_request t tx q H0 Hjt Hu (set_ch c w) Hw) as (A & _ & C). split; [exact A|]. rewrite C.
    change (weight t (set_ch c w)) with (weight t w). f_equal. unfold one. cbn [is_n negb]. destruct (is_join q) eqn:Hq; cbn [negb].
    + rewrite !andb_false_r. reflexivity.
    + rewrite !andb_true_r. destruct (tx =? t); reflexivity.
  - apply H, a_response.
  - apply H, a_timed_out.
  - apply H, a_member_timeout.
  - apply H, a_reset_peer.
  - apply H, a_connected.
  - apply H, a_committed.
  - apply H, a_removed.
  - apply H, a_added.
  - apply H. apply a_either; [apply a_id|]. apply (a_somewhere t LPeer). exact I.
  - apply H. apply a_some_peer. intros p. apply (a_send t p POther). exact I.
Qed.

Lemma cnt_app t a b : cnt t (a ++ b) = (cnt t a + cnt t b)%nat.
Proof. unfold cnt. rewrite filter_app, app_length. reflexivity. Qed.
Lemma asked_app a b : asked (a ++ b) = asked a ++ asked b.
Proof. apply flat_map_app. Qed.
Lemma run_snoc es e : run (es ++ [e]) = step (run es) e.
Proof. unfold run. rewrite fold_left_app. reflexivity. Qed.
Theorem run_weight t es : not_joining t es ->
  free t (run es) /\ (weight t (run es) <= cnt t (asked es))%nat /\ (dead (run es) = false -> weight t (run es) = cnt t (asked es)).
Proof.
  induction es as [|e es IH] using rev_ind; intros Hj.
  - split; [|split; [reflexivity|reflexivity]]. repeat (split; [cbn; auto; constructor|]). cbn. constructor.
  - rewrite run_snoc, asked_app, cnt_app. destruct IH as (A & B & C).
    { intros p Hp. apply (Hj p). rewrite asked_app. apply in_or_app. left. exact Hp. }
    destruct (dead (run es)) eqn:Hd.
    + assert (E : step (run es) e = run es) by (unfold step; rewrite Hd; reflexivity). rewrite E.
      split; [exact A|]. split; [lia|]. rewrite Hd. discriminate.
    + destruct (a_step t e) with (w := run es) as (A' & B'); [|exact Hd|exact A|].
      { intros p Hp. apply (Hj p). rewrite asked_app. apply in_or_app. right. destruct e as [e c]. cbn in Hp. subst e. left. reflexivity. }
      specialize (C eq_refl). split; [exact A'|]. split; intros; lia.
Qed.

Lemma cnt_le t l : NoDup (map fst l) -> (cnt t l <= 1)%nat.
Proof.
  induction l as [|x l IH]; [cbn; lia|]. cbn [map]. intros Hn. inversion Hn as [|? ? Hx Hl]; subst. unfold cnt in *. cbn [filter].
  destruct (counts t x) eqn:E; [|auto]. cbn [length]. unfold counts in E. repeat (apply andb_prop in E as [E _]). apply N.eqb_eq in E. subst t.
  assert (H : filter (counts (fst x)) l = []); [|rewrite H; cbn; lia].
  clear -Hx. induction l as [|y l IH]; [reflexivity|]. cbn in *. unfold counts at 1. destruct (N.eqb_spec (fst y) (fst x)) as [E|E]; [exfalso; apply Hx; left; exact E|].
  cbn. apply IH. intros H. apply Hx. right. exact H.
Qed.
Lemma cnt_in t q l : In (t, q) l -> t <> 0 -> is_join q = false -> no_request q = false -> (1 <= cnt t l)%nat.
Proof.
  intros Hin H0 Hj Hu. unfold cnt. assert (H : In (t, q) (filter (counts t) l)).
  { apply filter_In. split; [exact Hin|]. unfold counts. cbn. rewrite N.eqb_refl, Hj, Hu. destruct (N.eqb_spec t 0); [contradiction|reflexivity]. }
  destruct (filter (counts t) l); [destruct H|cbn; lia].
Qed.
Lemma numbered_one es t q : numbered es -> In (t, q) (asked es) -> is_join q = false -> not_joining t es.
Proof.
  unfold numbered. intros Hn Hin Hj p Hp. revert Hn Hin Hp. generalize (asked es). intros l. induction l as [|x l IH]; [contradiction|].
  cbn [map]. intros Hn Hin Hp. inversion Hn as [|? ? Hx Hl]; subst. destruct Hin as [->|Hin], Hp as [Hp|Hp].
  - injection Hp as ->. discriminate.
  - apply Hx. apply (in_map fst) in Hp. exact Hp.
  - subst x. apply Hx. apply (in_map fst) in Hin. exact Hin.
  - auto.
Qed.
