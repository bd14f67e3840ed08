(* C37: enclaves exchange data only with attested peers. *)
From Verif Require Import Peers PeersSpec PeersProofs Hist HistSpec.

(* C37: a message from a peer is handed on only if the peer completed a handshake
   with good evidence for the key that is its id, and the link was not taken down
   since.  Its latest evidence, that or a later one, is no older than the timeout
   unless a change of the clock is still being worked through; and its values meet
   the current limits unless a change of the limits is. *)
Theorem C37_data_only_from_attested_peers :
  forall E V L (attest : Z -> E -> option (bytes * V)) (check : L -> V -> bool) no_values timeout l0 h s rs id d s' m,
  (0 <= timeout)%Z ->
  exec (pstep attest check no_values timeout) (new_pmanager no_values l0) h = Ret (s, rs) ->
  pstep attest check no_values timeout s (PData id d) = Ret (s', PGot m) ->
  established attest check l0 h id /\
  exists k ev t v after, good_evidence attest check l0 h id k ev t v after /\
    (m_threads s = [] -> (Z.abs (time_after h - t) <= timeout)%Z) /\
    (m_threads s = [] -> mins_called h = true -> check (limits_after l0 h) v = true).
Proof.
  intros E V L attest check nv timeout l0 h s rs id d s' m Ht Ex Es.
  pose proof (inv_exec attest check nv timeout l0 Ht h [] _ _ _ (inv_start _ _ _ _ _) Ex) as [HT [HL HP]]. cbn [app] in *.
  destruct (HP id) as [P1 P2 P3 _ _ P6 _ P8 _]. cbn [pstep] in Es.
  destruct (match p_lock (m_peer s id) with Some _ => true | None => false end); [discriminate|].
  assert (Hc : p_chan (m_peer s id) = true) by (unfold state in Es; destruct (p_hs (m_peer s id)); [discriminate|destruct (p_chan (m_peer s id)); [reflexivity|discriminate]]).
  split; [auto|]. destruct (P3 Hc) as [k [ev [after Hg]]]. exists k, ev, (p_last (m_peer s id)), (p_vals (m_peer s id)), after.
  split; [exact Hg|]. split.
  - intros Hn. rewrite Hn in P6. destruct (P6 Hc) as [[H1 H2]|[[]|[todo [[] _]]]]. rewrite <- HT. lia.
  - intros Hn Hm. rewrite Hn in P8. destruct (P8 Hm Hc) as [H|[[[x []]|[todo [x [[] _]]]]|[todo []]]]. now rewrite <- HL.
Qed.
(* C37: the same goes for what is sent *)
Theorem C37_data_only_to_attested_peers :
  forall E V L (attest : Z -> E -> option (bytes * V)) (check : L -> V -> bool) no_values timeout l0 h s rs id ok s',
  (0 <= timeout)%Z ->
  exec (pstep attest check no_values timeout) (new_pmanager no_values l0) h = Ret (s, rs) ->
  pstep attest check no_values timeout s (PSend id ok) = Ret (s', PSent) ->
  established attest check l0 h id /\
  exists k ev t v after, good_evidence attest check l0 h id k ev t v after /\
    (m_threads s = [] -> (Z.abs (time_after h - t) <= timeout)%Z) /\
    (m_threads s = [] -> mins_called h = true -> check (limits_after l0 h) v = true).
Proof.
  intros E V L attest check nv timeout l0 h s rs id ok s' Ht Ex Es.
  apply (C37_data_only_from_attested_peers E V L attest check nv timeout l0 h s rs id (DMsg []) (set_peer id (m_peer s id) s) [] Ht Ex).
  cbn [pstep] in *. destruct (match p_lock (m_peer s id) with Some _ => true | None => false end); [discriminate|].
  destruct (state (m_peer s id)); try discriminate. reflexivity.
Qed.
(* C37: after a reset, by either side, nothing is handed on until a new handshake is
   completed *)
Theorem C37_reset_returns_to_unauthenticated :
  forall E V L (attest : Z -> E -> option (bytes * V)) (check : L -> V -> bool) no_values timeout l0 h1 o h2 s rs id d s' r,
  (0 <= timeout)%Z -> o = PRst id \/ o = PReset id ->
  exec (pstep attest check no_values timeout) (new_pmanager no_values l0) (h1 ++ o :: h2) = Ret (s, rs) ->
  ~ In (PDone id true) h2 ->
  pstep attest check no_values timeout s (PData id d) = Ret (s', r) -> r = PErr.
Proof.
  intros E V L attest check nv timeout l0 h1 o h2 s rs id d s' r Ht Ho Ex Hn Es.
  destruct r; auto; try (cbn [pstep] in Es; destruct (match p_lock (m_peer s id) with Some _ => true | None => false end); [discriminate|];
    destruct (state (m_peer s id)), d; discriminate).
  exfalso. destruct (C37_data_only_from_attested_peers _ _ _ _ _ _ _ _ _ _ _ _ _ _ _ Ht Ex Es) as [[k [ev [t [v [h3 [h4 [_ [[a [b [Eh _]]] Hc]]]]]]]] _].
  assert (Eh' : h1 ++ o :: h2 = (a ++ PLock id k :: b ++ PCheck id ev :: h3) ++ PDone id true :: h4).
  { rewrite Eh, <- app_assoc. cbn [app]. rewrite <- app_assoc. reflexivity. }
  destruct (split_order _ _ _ _ _ _ Eh') as [Hi|[Hi|Hi]].
  - apply Hc in Hi. destruct Ho; subst o; cbn in Hi; rewrite beq_refl in Hi; discriminate.
  - destruct Ho; subst o; discriminate.
  - contradiction.
Qed.
(* C37: a message that does not decrypt and evidence that is not good take the link
   down *)
Theorem C37_failures_disconnect :
  forall E V L (attest : Z -> E -> option (bytes * V)) (check : L -> V -> bool) no_values timeout s o id s' r,
  (o = PData id DFail \/ (exists ev, o = PCheck id ev /\ r = PErr) \/ o = PRst id \/ o = PReset id) ->
  pstep attest check no_values timeout s o = Ret (s', r) ->
  state (m_peer s' id) = Disconnected /\ forall x, x <> id -> m_peer s' x = m_peer s x.
Proof.
  intros E V L attest check nv timeout s o id s' r Ho Es.
  assert (Hd : s' = set_peer id (new_peer nv) s).
  { destruct Ho as [->|[[ev [-> ->]]|[->| ->]]]; cbn [pstep] in Es.
    - destruct (match p_lock (m_peer s id) with Some _ => true | None => false end); [discriminate|].
      destruct (state (m_peer s id)); injection Es as <- _; reflexivity.
    - destruct (p_lock (m_peer s id)) as [[[k ts] [v|]]|]; try discriminate.
      destruct (attest ts ev) as [[key v]|]; [destruct (beq key id && check (m_limits s) v)%bool; [discriminate|]|]; injection Es as <-; reflexivity.
    - destruct (match p_lock (m_peer s id) with Some _ => true | None => false end); [discriminate|]. injection Es as <- _; reflexivity.
    - destruct (match p_lock (m_peer s id) with Some _ => true | None => false end); [discriminate|]. injection Es as <- _; reflexivity. }
  subst s'. cbn. rewrite beq_refl. split; [reflexivity|]. intros x Hx. destruct (beq x id) eqn:Eb; [|reflexivity]. apply beq_eq in Eb. now destruct Hx.
Qed.

(* --- concrete cases ------------------------------------------------------- *)
(* evidence is a key, a value and the time it was made; it is good for 50 seconds *)
Definition x_attest (now : Z) (e : bytes * N * Z) : option (bytes * N) :=
  let '(key, v, t) := e in if (Z.abs (now - t) <=? 50)%Z then Some (key, v) else None.
Definition x_check (l v : N) : bool := l <=? v.
Notation x_step := (pstep x_attest x_check 0 100%Z).
(* an accepted connection, data, an update, the clock moving on *)
Definition x_ops : list (pop (bytes * N * Z) N) :=
  [PTime 1000; PStart 0; PEnd 0; PLock [7] KSyn; PCheck [7] ([7], 5, 990%Z); PDone [7] true; PData [7] (DMsg [1]);
   PTime 1080; PLock [7] KUpdate; PStart 0; PCheck [7] ([7], 6, 1075%Z); PDone [7] true; PSweep 0 [7]; PEnd 0;
   PLimits 6; PMins; PStart 0; PSweep 0 [7]; PEnd 0].
Example x_link : exists s rs s',
  exec x_step (new_pmanager 0 1) x_ops = Ret (s, rs) /\ m_threads s = [] /\ mins_called x_ops = true /\
  x_step s (PData [7] (DMsg [2])) = Ret (s', PGot [2]).
Proof. eexists _, _, _. split; [vm_compute; reflexivity|]. repeat split. Qed.
(* the clock, the limits, a wrong key and old evidence take it down *)
Example x_down : forall more, In more
  [[PTime 1181; PStart 0; PSweep 0 [7]; PEnd 0]; [PLimits 7; PMins; PStart 0; PSweep 0 [7]; PDrop 0; PEnd 0];
   [PLock [7] KUpdate; PCheck [7] ([8], 6, 1075%Z)]; [PLock [7] KUpdate; PCheck [7] ([7], 6, 100%Z)]; [PLock [7] KUpdate; PCheck [7] ([7], 5, 1075%Z)];
   [PLock [7] KSyn; PCheck [7] ([7], 6, 1075%Z); PDone [7] false]; [PRst [7]]] ->
  exists s rs, exec x_step (new_pmanager 0 1) (x_ops ++ more) = Ret (s, rs) /\ state (m_peer s [7]) = Disconnected.
Proof.
  intros more Hm. cbn [In] in Hm. repeat destruct Hm as [<-|Hm]; try contradiction; eexists _, _; (split; [vm_compute; reflexivity|vm_compute; reflexivity]).
Qed.

(* C37: evidence that is good connects, whichever side starts, and data passes *)
Definition handshake {E L} (starts : bool) (id : bytes) (ev : E) : list (pop E L) :=
  (if starts then [PConnect id false true; PLock id KSynack] else [PLock id KSyn]) ++ [PCheck id ev; PDone id true].
Theorem C37_good_evidence_connects :
  forall E V L (attest : Z -> E -> option (bytes * V)) (check : L -> V -> bool) no_values timeout s id ev v starts,
  p_lock (m_peer s id) = None -> attest (m_time s) ev = Some (id, v) -> check (m_limits s) v = true ->
  exists s' rs, exec (pstep attest check no_values timeout) s (handshake starts id ev) = Ret (s', rs ++ [PConnected]) /\
  (forall m, exists s2, pstep attest check no_values timeout s' (PData id (DMsg m)) = Ret (s2, PGot m)) /\
  (exists s2, pstep attest check no_values timeout s' (PSend id true) = Ret (s2, PSent)) /\
  forall x, x <> id -> m_peer s' x = m_peer s x.
Proof.
  intros E V L attest check nv timeout s id ev v starts Hl Ha Hc.
  destruct starts; unfold handshake; cbn [app exec pstep].
  - repeat (first [rewrite Hl |  rewrite Ha | rewrite Hc | rewrite beq_refl | progress cbn [set_peer m_peer m_time m_limits p_lock p_hs p_chan p_last p_vals state andb]]).
    eexists _, [POk; POk; POk]. split; [reflexivity|]. cbn [m_peer pstep set_peer]. rewrite beq_refl. cbn.
    split; [eauto|]. split; [eauto|]. intros x Hx. destruct (beq x id) eqn:Eb; [apply beq_eq in Eb; contradiction|]. now rewrite ?Eb.
  - repeat (first [rewrite Hl |  rewrite Ha | rewrite Hc | rewrite beq_refl | progress cbn [set_peer m_peer m_time m_limits p_lock p_hs p_chan p_last p_vals state andb]]).
    eexists _, [POk; POk]. split; [reflexivity|]. cbn [m_peer pstep set_peer]. rewrite beq_refl. cbn.
    split; [eauto|]. split; [eauto|]. intros x Hx. destruct (beq x id) eqn:Eb; [apply beq_eq in Eb; contradiction|]. now rewrite ?Eb.
Qed.
(* C37: the clock and new limits leave a link alone whose evidence is within the time
   allowed and meets the limits *)
Theorem C37_fresh_links_stay :
  forall E V L (attest : Z -> E -> option (bytes * V)) (check : L -> V -> bool) no_values timeout s id ev v starts secs l m,
  p_lock (m_peer s id) = None -> m_threads s = [] -> attest (m_time s) ev = Some (id, v) -> check (m_limits s) v = true ->
  secs <> m_time s -> (Z.abs (secs - m_time s) <= timeout)%Z -> check l v = true ->
  exists s' rs, exec (pstep attest check no_values timeout) s
    (handshake starts id ev ++ [PTime secs; PStart 0; PSweep 0 id; PLimits l; PMins; PStart 0; PSweep 0 id; PData id (DMsg m)]) = Ret (s', rs ++ [PGot m]).
Proof.
  intros E V L attest check nv timeout s id ev v starts secs l m Hl Ht Ha Hc Hn Hs Hv.
  assert (Hne : (m_time s =? secs)%Z = false) by lia.
  assert (Hold : ((secs <=? m_time s + timeout) && (m_time s - timeout <=? secs))%Z%bool = true) by lia.
  destruct starts; unfold handshake; cbn [app exec pstep];
    repeat (first [rewrite Hl |  rewrite Ha | rewrite Hc | rewrite Ht | rewrite Hne | rewrite Hold | rewrite Hv | rewrite beq_refl | 
      progress cbn [set_peer set_threads m_peer m_time m_limits m_threads p_lock p_hs p_chan p_last p_vals state andb nth_error replace_nth app negb] | progress unfold too_old]);
    [eexists _, [_;_;_;_;_;_;_;_;_;_;_]|eexists _, [_;_;_;_;_;_;_;_;_;_]]; reflexivity.
Qed.

(* the step that made the link in x_ops *)
Example x_handshake : forall starts, exists s' rs, exec x_step (PManager 1000%Z 1 [] (fun _ => new_peer 0) []) (handshake starts [7] ([7], 5, 990%Z) ++ [PTime 1100; PStart 0; PSweep 0 [7]; PLimits 5; PMins; PStart 0; PSweep 0 [7]; PData [7] (DMsg [2])]) = Ret (s', rs ++ [PGot [2]]).
Proof. intros starts. apply (C37_fresh_links_stay _ _ _ _ _ _ _ _ _ _ 5); try reflexivity; cbn; lia. Qed.

Print Assumptions C37_data_only_from_attested_peers.
Print Assumptions C37_data_only_to_attested_peers.
Print Assumptions C37_reset_returns_to_unauthenticated.
Print Assumptions C37_failures_disconnect.
Print Assumptions C37_good_evidence_connects.
Print Assumptions C37_fresh_links_stay.
