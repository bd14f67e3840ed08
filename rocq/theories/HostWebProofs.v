From Verif Require Import HostWebSpec HostAuthProofs.

Lemma pick_app {A} (f : act -> list A) a b : pick f (a ++ b) = pick f a ++ pick f b.
Proof. apply flat_map_app. Qed.

Section W.
Variable sees : list act -> bytes -> bytes -> bool.
Variable limiter : list act -> N.
Variable upgrade : list act -> bool.
Variable enclave : list act -> hreq -> hresp.
Variable can_send : list act -> bool.
Notation relay := (relay enclave can_send).
Notation session := (session enclave can_send).
Notation websocket := (websocket upgrade enclave can_send).
Notation delete_backup := (delete_backup enclave).
Notation serve_client := (serve_client sees limiter upgrade enclave can_send).

(* a reply with which the relay ends *)
Definition last_word (p : hresp) (e : wend) : Prop :=
  match p with
  | PMsg [] true => e = WNil
  | PMsg _ _ => False
  | PStatus code => e = if code =? 0 then WHost else WEnclave code
  | _ => e = WHost
  end.
Inductive talk (c : N) : list wread -> list act -> option wend -> Prop :=
| t_wait : talk c [] [] None
| t_big d rs : max_read < blen d -> talk c (RMsg d :: rs) [ARead RFail] (Some WHost)
| t_fail rs : talk c (RFail :: rs) [ARead RFail] (Some WHost)
| t_closed rs : talk c (RClosed :: rs) [ARead RClosed] (Some WPeerClosed)
| t_last d rs p e : blen d <= max_read -> last_word p e -> talk c (RMsg d :: rs) [ARead (RMsg d); AEnclave (QMsg c d) p] (Some e)
| t_nosend d rs b d' fin : blen d <= max_read ->
    talk c (RMsg d :: rs) [ARead (RMsg d); AEnclave (QMsg c d) (PMsg (b :: d') fin); ASend (b :: d') false] (Some WHost)
| t_fin d rs b d' : blen d <= max_read ->
    talk c (RMsg d :: rs) [ARead (RMsg d); AEnclave (QMsg c d) (PMsg (b :: d') true); ASend (b :: d') true] (Some WNil)
| t_quiet d rs t e : blen d <= max_read -> talk c rs t e ->
    talk c (RMsg d :: rs) ([ARead (RMsg d); AEnclave (QMsg c d) (PMsg [] false)] ++ t) e
| t_more d rs b d' t e : blen d <= max_read -> talk c rs t e ->
    talk c (RMsg d :: rs) ([ARead (RMsg d); AEnclave (QMsg c d) (PMsg (b :: d') false); ASend (b :: d') true] ++ t) e.

Lemma relay_talk c reads : forall past, exists t e, relay c reads past = (past ++ t, e) /\ talk c reads t e.
Proof.
  induction reads as [|r rs IH]; intros past.
  - exists [], None. rewrite app_nil_r. split; [reflexivity|constructor].
  - cbn [HostWeb.relay]. destruct r as [d| |].
    + destruct (max_read <? blen d) eqn:Eb.
      { exists [ARead RFail], (Some WHost). split; [reflexivity|]. constructor. now apply N.ltb_lt. }
      apply N.ltb_ge in Eb. set (past1 := past ++ [ARead (RMsg d)]). set (p := enclave past1 (QMsg c d)).
      set (past2 := past1 ++ [AEnclave (QMsg c d) p]). assert (E2 : past2 = past ++ [ARead (RMsg d); AEnclave (QMsg c d) p])
        by (unfold past2, past1; now rewrite <- app_assoc). clearbody p. destruct p as [? ?|d' fin|code| |].
      * rewrite E2. eexists _, _. split; [reflexivity|]. apply t_last; [exact Eb|reflexivity].
      * destruct d' as [|b d'].
        { cbn [negb]. destruct fin.
          - rewrite E2. eexists _, _. split; [reflexivity|]. apply t_last; [exact Eb|reflexivity].
          - destruct (IH past2) as (t & e & -> & Ht). rewrite E2, <- app_assoc. eexists _, _. split; [reflexivity|]. now apply t_quiet. }
        destruct (can_send past2); cbn [negb].
        { destruct fin.
          - rewrite E2, <- app_assoc. eexists _, _. split; [reflexivity|]. now apply t_fin.
          - destruct (IH (past2 ++ [ASend (b :: d') true])) as (t & e & -> & Ht). rewrite E2, <- !app_assoc. eexists _, _. split; [reflexivity|].
            exact (t_more c d rs b d' t e Eb Ht). }
        rewrite E2, <- app_assoc. eexists _, _. split; [reflexivity|]. now apply t_nosend.
      * rewrite E2. eexists _, _. split; [reflexivity|]. apply t_last; [exact Eb|reflexivity].
      * rewrite E2. eexists _, _. split; [reflexivity|]. apply t_last; [exact Eb|reflexivity].
      * rewrite E2. eexists _, _. split; [reflexivity|]. apply t_last; [exact Eb|reflexivity].
    + eexists _, _. split; [reflexivity|constructor].
    + eexists _, _. split; [reflexivity|constructor].
Qed.

(* how a websocket's trace looks, after the upgrade *)
Inductive chat (id : bytes) (reads : list wread) : list act -> Prop :=
| c_none p : (forall c s, p <> PNew c s) -> chat id reads [AEnclave (QNew id) p; AClose WS_InternalError]
| c_nosend c s r : chat id reads [AEnclave (QNew id) (PNew c s); ASend s false; AEnclave (QEnd c) r; AClose WS_InternalError]
| c_wait c s t : talk c reads t None -> chat id reads ([AEnclave (QNew id) (PNew c s); ASend s true] ++ t)
| c_over c s t e r : talk c reads t (Some e) ->
    chat id reads ([AEnclave (QNew id) (PNew c s); ASend s true] ++ t ++ AEnclave (QEnd c) r :: map AClose (match close_code e with Some x => [x] | None => [] end)).
Lemma websocket_chat user reads past : 
  (exists x, (x = AStatus 400 \/ x = AUpgrade false) /\ websocket user reads past = past ++ [x]) \/
  exists id t, names user id /\ websocket user reads past = past ++ AUpgrade true :: t /\ chat id reads t.
Proof.
  unfold HostWeb.websocket. destruct (hex_decode user) as [id|] eqn:Eh; [|left; eauto].
  destruct (blen id =? 16) eqn:El; cbn [negb]; [|left; eauto]. destruct (upgrade past); cbn [negb]; [|left; eauto]. right.
  apply N.eqb_eq in El. exists id. set (p1 := past ++ [AUpgrade true]). unfold HostWeb.session.
  assert (Hn : names user id). { split; [now apply hex_decode_spec|]. unfold blen in El. lia. }
  destruct (enclave p1 (QNew id)) as [c s|d f|code| |] eqn:Ep.
  2-5: eexists; split; [exact Hn|]; split; [cbn; unfold p1; rewrite <- !app_assoc; reflexivity|]; cbn; apply c_none; discriminate.
  set (p2 := p1 ++ [AEnclave (QNew id) (PNew c s)]). assert (E2 : p2 = past ++ [AUpgrade true; AEnclave (QNew id) (PNew c s)])
    by (unfold p2, p1; now rewrite <- app_assoc). destruct (can_send p2).
  - destruct (relay_talk c reads (p2 ++ [ASend s true])) as (t & e & -> & Ht). destruct e as [e|].
    + set (r := enclave _ _). exists ([AEnclave (QNew id) (PNew c s); ASend s true] ++ t ++ AEnclave (QEnd c) r :: map AClose (match close_code e with Some x => [x] | None => [] end)).
      split; [exact Hn|]. split; [|now constructor]. rewrite E2. destruct (close_code e); cbn [map]; rewrite <- !app_assoc; reflexivity.
    + exists ([AEnclave (QNew id) (PNew c s); ASend s true] ++ t). split; [exact Hn|]. split; [|now constructor]. rewrite E2, <- !app_assoc. reflexivity.
  - set (r := enclave _ _). exists [AEnclave (QNew id) (PNew c s); ASend s false; AEnclave (QEnd c) r; AClose WS_InternalError].
    split; [exact Hn|]. split; [|constructor]. cbn [close_code]. rewrite E2, <- !app_assoc. reflexivity.
Qed.

(* --- facts of a talk ----------------------------------------------------------------- *)
Lemma talk_passed c reads t e : talk c reads t e -> passed t = got t.
Proof. induction 1; cbn; auto; try (unfold passed, got, pick in *; cbn; congruence). Qed.
Lemma talk_got c reads t e : talk c reads t e -> exists n, map RMsg (got t) = firstn n reads.
Proof.
  induction 1.
  all: try (exists 0%nat; reflexivity).
  all: try (exists 1%nat; reflexivity).
  - destruct IHtalk as [n Hn]. exists (S n). cbn. now f_equal.
  - destruct IHtalk as [n Hn]. exists (S n). cbn. now f_equal.
Qed.
Lemma talk_wait c reads t : talk c reads t None -> map RMsg (got t) = reads.
Proof. intros H. remember None as e. induction H; try discriminate; cbn; [reflexivity|..]; f_equal; auto. Qed.
Lemma talk_small c reads t e : talk c reads t e -> Forall (fun d => blen d <= max_read) (got t).
Proof. induction 1; cbn; repeat constructor; auto. Qed.
Lemma talk_sent c reads t e : talk c reads t e -> sent t = due t.
Proof.
  induction 1; cbn; auto.
  - destruct p as [ | [|? ?] ? | | | ]; cbn; auto. destruct H0.
  - now f_equal.
Qed.
Lemma talk_calls c reads t e q r : talk c reads t e -> In (AEnclave q r) t -> exists d, q = QMsg c d.
Proof.
  induction 1; cbn; intros Hin; repeat (destruct Hin as [Hin|Hin]; [try discriminate; injection Hin as <- _; eauto|]); auto; destruct Hin.
Qed.
Lemma talk_ends c reads t e : talk c reads t e -> ends t = [] /\ closes t = [].
Proof. induction 1; cbn; auto. Qed.
Lemma talk_read c reads t e : talk c reads t e -> forall a d b, t = a ++ ARead (RMsg d) :: b -> passed a = got a /\ sent a = due a.
Proof.
  assert (short : forall (x : list act) a d b, x = a ++ ARead (RMsg d) :: b -> match x with [] => True | y :: x' => (forall d', ~ In (ARead (RMsg d')) x') -> a = [] end).
  { intros x a d b ->. destruct a as [|y a]; [intros _; reflexivity|]. cbn. intros H. destruct (H d). apply in_or_app. right. now left. }
  induction 1; intros a d1 b1 Heq.
  all: try (pose proof (short _ _ _ _ Heq) as S0; cbn in S0; rewrite S0; [auto|]; intros d2 Hin;
            repeat (destruct Hin as [Hin|Hin]; [discriminate Hin|]); exact Hin).
  - destruct a; discriminate.
  - destruct a as [|a0 [|a1 a]]; try discriminate; [auto|]. cbn in Heq. injection Heq as <- <- Heq.
    destruct (IHtalk _ _ _ Heq) as [I1 I2]. split; [change (d :: passed a = d :: got a); congruence|]. exact I2.
  - destruct a as [|a0 [|a1 [|a2 a]]]; try discriminate; [auto|]. cbn in Heq. injection Heq as <- <- <- Heq.
    destruct (IHtalk _ _ _ Heq) as [I1 I2]. split; [change (d :: passed a = d :: got a); congruence|].
    change ((b :: d') :: sent a = (b :: d') :: due a). congruence.
Qed.
(* an error of the enclave is the last thing *)
Lemma talk_error c reads t e c' d code : talk c reads t e -> In (AEnclave (QMsg c' d) (PStatus code)) t -> code <> 0 ->
  exists a, t = a ++ [AEnclave (QMsg c d) (PStatus code)] /\ e = Some (WEnclave code).
Proof.
  intros H Hin Hc. induction H.
  all: try (exfalso; cbn in Hin; intuition discriminate).
  - destruct Hin as [Hin|[Hin|[]]]; [discriminate|]. injection Hin as _ -> ->. exists [ARead (RMsg d)]. split; [reflexivity|].
    cbn in H0. destruct (N.eqb_spec code 0); congruence.
  - cbn in Hin. destruct Hin as [Hin|[Hin|Hin]]; [discriminate..|]. destruct (IHtalk Hin) as (a & -> & ->). eexists (_ :: _ :: a). split; reflexivity.
  - cbn in Hin. destruct Hin as [Hin|[Hin|[Hin|Hin]]]; [discriminate..|]. destruct (IHtalk Hin) as (a & -> & ->). eexists (_ :: _ :: _ :: a). split; reflexivity.
Qed.
Lemma talk_enclave c reads t code : talk c reads t (Some (WEnclave code)) ->
  exists a d, t = a ++ [AEnclave (QMsg c d) (PStatus code)] /\ code <> 0.
Proof.
  intros H. remember (Some (WEnclave code)) as e eqn:He. induction H; try discriminate.
  - injection He as ->. destruct p as [? ?|[|? ?] [|]|cd| |]; cbn in H0; try discriminate; try contradiction.
    destruct (N.eqb_spec cd 0); [discriminate|]. injection H0 as <-. exists [ARead (RMsg d)], d. auto.
  - destruct (IHtalk He) as (a & d1 & -> & Hc). eexists (_ :: _ :: a), d1. split; [reflexivity|exact Hc].
  - destruct (IHtalk He) as (a & d1 & -> & Hc). eexists (_ :: _ :: _ :: a), d1. split; [reflexivity|exact Hc].
Qed.
Lemma talk_nil c reads t : talk c reads t (Some WNil) ->
  exists a d d', t = a ++ AEnclave (QMsg c d) (PMsg d' true) :: (match d' with [] => [] | _ => [ASend d' true] end).
Proof.
  intros H. remember (Some WNil) as e eqn:He. induction H; try discriminate.
  - injection He as ->. destruct p as [? ?|[|? ?] [|]|cd| |]; cbn in H0; try discriminate; try contradiction.
    + exists [ARead (RMsg d)], d, []. reflexivity.
    + destruct (cd =? 0); discriminate.
  - exists [ARead (RMsg d)], d, (b :: d'). reflexivity.
  - destruct (IHtalk He) as (a & d1 & d2 & ->). eexists (_ :: _ :: a), d1, d2. reflexivity.
  - destruct (IHtalk He) as (a & d1 & d2 & ->). eexists (_ :: _ :: _ :: a), d1, d2. reflexivity.
Qed.

(* --- the whole service ------------------------------------------------------------------ *)
Definition prelude (user pass : bytes) (v : N) : list act := [AAuth user pass true; ALimit user v].
Lemma serve_shape user pass ep :
  (sees [] user pass = false /\ serve_client user pass ep = [AAuth user pass false; AStatus 401]) \/
  (sees [] user pass = true /\ limiter [AAuth user pass true] = 1 /\ serve_client user pass ep = prelude user pass 1 ++ [AStatus 429]) \/
  (sees [] user pass = true /\ limiter [AAuth user pass true] = 2 /\ serve_client user pass ep = prelude user pass 2 ++ [AStatus 499]) \/
  (sees [] user pass = true /\ exists v, v <> 1 /\ v <> 2 /\ limiter [AAuth user pass true] = v /\
     serve_client user pass ep = match ep with EWebsocket reads => websocket user reads (prelude user pass v) | EDelete d => delete_backup d user (prelude user pass v) end).
Proof.
  unfold HostWeb.serve_client, auth_check, rate_limit. destruct (sees [] user pass) eqn:Es; [|left; auto]. right. cbn [app].
  destruct (N.eqb_spec (limiter [AAuth user pass true]) 1) as [E1|N1]; [rewrite E1; left; auto|]. right.
  destruct (N.eqb_spec (limiter [AAuth user pass true]) 2) as [E2|N2]; [rewrite E2; left; auto|]. right.
  split; [reflexivity|]. exists (limiter [AAuth user pass true]). split; [exact N1|]. split; [exact N2|]. split; [reflexivity|]. destruct ep; reflexivity.
Qed.

(* all that can be asked of the enclave: in a chat, or to delete *)
Lemma serve_asks user pass ep : asks_enclave (serve_client user pass ep) ->
  sees [] user pass = true /\ exists v, v <> 1 /\ v <> 2 /\ limiter [AAuth user pass true] = v /\ exists id, names user id /\
    ((exists reads t, ep = EWebsocket reads /\ chat id reads t /\ serve_client user pass ep = prelude user pass v ++ AUpgrade true :: t) \/
     (exists p, ep = EDelete true /\ serve_client user pass ep = prelude user pass v ++ [AEnclave (QDb id delete_request) p;
         AStatus (match p with PFail => 500 | PStatus code => if code =? 0 then 200 else 500 | _ => 200 end)])).
Proof.
  intros (q & r & Hin). destruct (serve_shape user pass ep) as [(H & E)|[(H & _ & E)|[(H & _ & E)|(H & v & N1 & N2 & Hv & E)]]]; rewrite E in Hin.
  1-3: exfalso; cbn in Hin; intuition discriminate.
  split; [exact H|]. exists v. split; [exact N1|]. split; [exact N2|]. split; [exact Hv|]. destruct ep as [reads|del].
  - destruct (websocket_chat user reads (prelude user pass v)) as [(x & Hx & Ew)|(id & t & Hn & Ew & Hc)]; rewrite Ew in Hin.
    + exfalso. cbn in Hin. destruct Hx as [-> | ->]; intuition discriminate.
    + exists id. split; [exact Hn|]. left. exists reads, t. split; [reflexivity|]. split; [exact Hc|]. now rewrite E.
  - rewrite E in *. unfold HostWeb.delete_backup in *. destruct del; cbn [negb] in *; [|exfalso; cbn in Hin; intuition discriminate].
    destruct (hex_decode user) as [id|] eqn:Eh; [|exfalso; cbn in Hin; intuition discriminate].
    destruct (blen id =? 16) eqn:El; cbn [negb] in *; [|exfalso; cbn in Hin; intuition discriminate].
    exists id. split; [split; [now apply hex_decode_spec|]; apply N.eqb_eq in El; unfold blen in El; lia|]. right. eexists. split; reflexivity.
Qed.
Lemma no_asks user pass ep : ~ asks_enclave (serve_client user pass ep) ->
  passed (serve_client user pass ep) = [] /\ got (serve_client user pass ep) = [] /\ sent (serve_client user pass ep) = [] /\
  due (serve_client user pass ep) = [] /\ closes (serve_client user pass ep) = [] /\ (forall d, ~ In (ARead (RMsg d)) (serve_client user pass ep)).
Proof.
  intros Hno. destruct (serve_shape user pass ep) as [(H & E)|[(H & _ & E)|[(H & _ & E)|(H & v & N1 & N2 & Hv & E)]]]; rewrite E in *.
  1-3: repeat split; auto; intros d Hin; cbn in Hin; intuition discriminate.
  destruct ep as [reads|del].
  - destruct (websocket_chat user reads (prelude user pass v)) as [(x & Hx & Ew)|(id & t & Hn & Ew & Hc)]; rewrite Ew in *.
    + destruct Hx as [-> | ->]; repeat split; auto; intros d Hin; cbn in Hin; intuition discriminate.
    + exfalso. apply Hno. destruct Hc; do 2 eexists; apply in_or_app; right; right; left; reflexivity.
  - unfold HostWeb.delete_backup in *. destruct del; cbn [negb] in *; [|repeat split; auto; intros d Hin; cbn in Hin; intuition discriminate].
    destruct (hex_decode user) as [id|]; [|repeat split; auto; intros d Hin; cbn in Hin; intuition discriminate].
    destruct (blen id =? 16); cbn [negb] in *; [|repeat split; auto; intros d Hin; cbn in Hin; intuition discriminate].
    exfalso. apply Hno. do 2 eexists. apply in_or_app. right. left. reflexivity.
Qed.
Lemma asks_dec tr : asks_enclave tr \/ ~ asks_enclave tr.
Proof.
  induction tr as [|a tr [(q & r & H)|H]].
  - right. intros (q & r & []).
  - left. exists q, r. now right.
  - destruct a. 5: left; eexists _, _; left; reflexivity.
    all: right; intros (q' & r' & [Hx|Hx]); [discriminate|apply H; exists q', r'; exact Hx].
Qed.

Lemma only_for user pass ep q r : In (AEnclave q r) (serve_client user pass ep) ->
  sees [] user pass = true /\ limiter [AAuth user pass true] <> 1 /\
  match q with
  | QNew id | QDb id _ => names user id
  | QMsg c _ | QEnd c => exists id s a b, names user id /\ serve_client user pass ep = a ++ AEnclave (QNew id) (PNew c s) :: b /\ In (AEnclave q r) b
  end.
Proof.
  intros Hin. destruct (serve_asks user pass ep) as (Hs & v & N1 & N2 & Hv & id & Hn & Hx); [exists q, r; exact Hin|].
  split; [exact Hs|]. split; [congruence|]. destruct Hx as [(reads & t & -> & Hc & E)|(p & -> & E)]; rewrite E in Hin |- *.
  2: { cbn in Hin. destruct Hin as [Hin|[Hin|[Hin|[Hin|[]]]]]; try discriminate. injection Hin as <- _. exact Hn. }
  assert (Ht : In (AEnclave q r) t). { apply in_app_or in Hin as [Hin|[Hin|Hin]]; [cbn in Hin; intuition discriminate|discriminate|exact Hin]. }
  clear Hin. destruct Hc as [p Hp|c s r0|c s t Ht0|c s t e r0 Ht0].
  - cbn in Ht. destruct Ht as [Ht|[Ht|[]]]; [|discriminate]. injection Ht as <- _. exact Hn.
  - cbn in Ht. destruct Ht as [Ht|[Ht|[Ht|[Ht|[]]]]]; try discriminate.
    + injection Ht as <- _. exact Hn.
    + injection Ht as <- <-. exists id, s, (prelude user pass v ++ [AUpgrade true]), [ASend s false; AEnclave (QEnd c) r0; AClose WS_InternalError].
      split; [exact Hn|]. split; [now rewrite <- app_assoc|]. right. left. reflexivity.
  - cbn in Ht. destruct Ht as [Ht|[Ht|Ht]]; [|discriminate|].
    + injection Ht as <- _. exact Hn.
    + destruct (talk_calls _ _ _ _ _ _ Ht0 Ht) as (d & ->). exists id, s, (prelude user pass v ++ [AUpgrade true]), (ASend s true :: t).
      split; [exact Hn|]. split; [now rewrite <- app_assoc|]. right. exact Ht.
  - cbn in Ht. destruct Ht as [Ht|[Ht|Ht]]; [|discriminate|].
    + injection Ht as <- _. exact Hn.
    + assert (Hq : (exists d, q = QMsg c d) \/ q = QEnd c).
      { apply in_app_or in Ht as [Ht|[Ht|Ht]].
        - left. eapply talk_calls; eauto.
        - injection Ht as <- _. now right.
        - apply in_map_iff in Ht as (? & ? & _). discriminate. }
      enough (Hg : exists id s1 a b, names user id /\ prelude user pass v ++ AUpgrade true :: [AEnclave (QNew id) (PNew c s); ASend s true] ++ t ++ AEnclave (QEnd c) r0 :: map AClose (match close_code e with Some x => [x] | None => [] end) =
                  a ++ AEnclave (QNew id) (PNew c s1) :: b /\ In (AEnclave q r) b).
      { destruct Hg as (id1 & s1 & a & b & G1 & G2 & G3). destruct Hn as [Hx Hl], G1 as [Gx Gl]. assert (id1 = id) as -> by (eapply hex_inj; eauto).
        destruct Hq as [(d & ->) | ->]; exists id, s1, a, b; (split; [split; assumption|]); auto. }
      exists id, s, (prelude user pass v ++ [AUpgrade true]), (ASend s true :: t ++ AEnclave (QEnd c) r0 :: map AClose (match close_code e with Some x => [x] | None => [] end)).
      split; [exact Hn|]. split; [now rewrite <- app_assoc|]. right. exact Ht.
Qed.

Lemma closes_got l : got (map AClose l) = [] /\ passed (map AClose l) = [] /\ sent (map AClose l) = [] /\ due (map AClose l) = [] /\ ends (map AClose l) = [] /\ closes (map AClose l) = l.
Proof. induction l as [|x l (A & B & C & D & F & G)]; cbn; repeat split; auto. f_equal. exact G. Qed.
Lemma chat_order id reads t : chat id reads t -> passed t = got t /\ sent t = due t /\ Forall (fun d => blen d <= max_read) (got t) /\ exists n, map RMsg (got t) = firstn n reads.
Proof.
  destruct 1 as [p Hp|c s r0|c s t Ht0|c s t e r0 Ht0].
  - destruct p; cbn; try (repeat split; auto; exists 0%nat; reflexivity). destruct (Hp client start). reflexivity.
  - cbn. repeat split; auto. exists 0%nat. reflexivity.
  - unfold passed, got, sent, due. rewrite !pick_app. pose proof (talk_passed _ _ _ _ Ht0) as A. pose proof (talk_sent _ _ _ _ Ht0) as B.
    pose proof (talk_small _ _ _ _ Ht0) as C. pose proof (talk_got _ _ _ _ Ht0) as F. cbn. split; [exact A|]. split; [|split; assumption]. f_equal. exact B.
  - set (l := match close_code e with Some x => [x] | None => [] end). destruct (closes_got l) as (G1 & G2 & G3 & G4 & _).
    change (AEnclave (QEnd c) r0 :: map AClose l) with ([AEnclave (QEnd c) r0] ++ map AClose l).
    pose proof (talk_passed _ _ _ _ Ht0) as A. pose proof (talk_sent _ _ _ _ Ht0) as B.
    pose proof (talk_small _ _ _ _ Ht0) as C. pose proof (talk_got _ _ _ _ Ht0) as F.
    unfold passed, got, sent, due in *. rewrite !pick_app, G1, G2, G3, G4. cbn. rewrite !app_nil_r.
    split; [exact A|]. split; [|split; assumption]. f_equal. exact B.
Qed.
Lemma in_order user pass ep : let tr := serve_client user pass ep in passed tr = got tr /\ sent tr = due tr /\ Forall (fun d => blen d <= max_read) (passed tr) /\
  (forall reads, ep = EWebsocket reads -> exists n, map RMsg (got tr) = firstn n reads).
Proof.
  intros tr. destruct (asks_dec tr) as [Ha|Ha].
  - destruct (serve_asks _ _ _ Ha) as (Hs & v & N1 & N2 & Hv & id & Hn & [(reads & t & -> & Hc & E)|(p & -> & E)]); unfold tr; rewrite E.
    + change (prelude user pass v ++ AUpgrade true :: t) with ((prelude user pass v ++ [AUpgrade true]) ++ t).
      destruct (chat_order _ _ _ Hc) as (A & B & C & F).
      replace (passed _) with (passed t) by reflexivity. replace (got _) with (got t) by reflexivity. replace (sent _) with (sent t) by reflexivity.
      replace (due _) with (due t) by reflexivity. split; [exact A|]. split; [exact B|]. split; [now rewrite A|]. intros ? [= <-]. exact F.
    + repeat split; auto. constructor. discriminate.
  - destruct (no_asks _ _ _ Ha) as (A & B & C & D & _). fold tr in A, B, C, D. rewrite A, B, C, D. repeat split; auto. exists 0%nat. reflexivity.
Qed.
(* the chat up to a read *)
Lemma app_eq_split (l1 l2 a : list act) x b : l1 ++ l2 = a ++ x :: b -> ~ In x l2 -> exists c, b = c ++ l2 /\ l1 = a ++ x :: c.
Proof.
  revert a. induction l1 as [|y l1 IH]; intros a H Hn.
  - cbn in H. destruct Hn. rewrite H. apply in_or_app. right. now left.
  - destruct a as [|z a]; cbn in H; injection H as -> H.
    + exists l1. split; [now symmetry|reflexivity].
    + destruct (IH a H Hn) as (c & -> & ->). exists c. auto.
Qed.
Lemma one_by_one user pass ep a d b : serve_client user pass ep = a ++ ARead (RMsg d) :: b -> passed a = got a /\ sent a = due a.
Proof.
  intros Heq. destruct (asks_dec (serve_client user pass ep)) as [Ha|Ha].
  2: { destruct (no_asks _ _ _ Ha) as (_ & _ & _ & _ & _ & F). destruct (F d). rewrite Heq. apply in_or_app. right. now left. }
  destruct (serve_asks _ _ _ Ha) as (Hs & v & N1 & N2 & Hv & id & Hn & [(reads & t & -> & Hc & E)|(p & -> & E)]); rewrite E in Heq.
  2: { destruct a as [|? [|? [|? [|? a]]]]; cbn in Heq; try discriminate. injection Heq as _ _ _ _ Heq. destruct a; discriminate. }
  destruct Hc as [p Hp|c s r0|c s t Ht0|c s t e r0 Ht0].
  - repeat (destruct a as [|? a]; [discriminate|cbn in Heq; injection Heq as _ Heq]). destruct a; discriminate.
  - repeat (destruct a as [|? a]; [discriminate|cbn in Heq; injection Heq as _ Heq]). destruct a; discriminate.
  - do 5 (destruct a as [|? a]; [discriminate|cbn in Heq; injection Heq as <- Heq]). destruct (talk_read _ _ _ _ Ht0 _ _ _ Heq) as [A B].
    cbn. split; [exact A|]. now f_equal.
  - do 5 (destruct a as [|? a]; [discriminate|cbn in Heq; injection Heq as <- Heq]).
    apply app_eq_split in Heq as (c0 & -> & Heq). 2: { intros [H|H]; [discriminate|]. apply in_map_iff in H as (? & H & _). discriminate. }
    destruct (talk_read _ _ _ _ Ht0 _ _ _ Heq) as [A B]. cbn. split; [exact A|]. now f_equal.
Qed.
Lemma closed_once user pass reads id c s : let tr := serve_client user pass (EWebsocket reads) in In (AEnclave (QNew id) (PNew c s)) tr ->
  (ends tr = [c] /\ exists a r b, tr = a ++ AEnclave (QEnd c) r :: b /\ (b = [] \/ exists code, b = [AClose code])) \/
  (ends tr = [] /\ closes tr = [] /\ map RMsg (got tr) = reads).
Proof.
  intros tr Hin. destruct (serve_asks user pass (EWebsocket reads)) as (Hs & v & N1 & N2 & Hv & id1 & Hn & [(reads1 & t & [= <-] & Hc & E)|(p & ? & E)]); [exists (QNew id), (PNew c s); exact Hin| |discriminate].
  unfold tr in *. rewrite E in *. destruct Hc as [p Hp|c1 s1 r0|c1 s1 t Ht0|c1 s1 t e r0 Ht0].
  - exfalso. cbn in Hin. repeat (destruct Hin as [Hin|Hin]; [try discriminate Hin|]); try contradiction. injection Hin as _ Hin. destruct (Hp c s Hin).
  - cbn in Hin. repeat (destruct Hin as [Hin|Hin]; [try discriminate Hin|]); try contradiction. injection Hin as <- <- <-.
    left. split; [reflexivity|]. exists (prelude user pass v ++ [AUpgrade true; AEnclave (QNew id1) (PNew c1 s1); ASend s1 false]), r0, [AClose WS_InternalError]. split; [now rewrite <- app_assoc|eauto].
  - right. destruct (talk_ends _ _ _ _ Ht0) as [A B]. split; [exact A|]. split; [exact B|]. exact (talk_wait _ _ _ Ht0).
  - left. assert (c1 = c) as ->.
    { apply in_app_or in Hin as [Hin|Hin]; [cbn in Hin; intuition discriminate|]. destruct Hin as [Hin|Hin]; [discriminate|]. apply in_app_or in Hin as [Hin|Hin].
      - destruct Hin as [Hin|[Hin|[]]]; [|discriminate]. congruence.
      - apply in_app_or in Hin as [Hin|[Hin|Hin]]; [|discriminate|].
        + destruct (talk_calls _ _ _ _ _ _ Ht0 Hin) as (d & ?). discriminate.
        + apply in_map_iff in Hin as (? & ? & _). discriminate. }
    set (l := match close_code e with Some x => [x] | None => [] end). split.
    + change (ends (t ++ [AEnclave (QEnd c) r0] ++ map AClose l) = [c]). unfold ends. rewrite !pick_app.
      destruct (talk_ends _ _ _ _ Ht0) as [A _]. destruct (closes_got l) as (_ & _ & _ & _ & G & _). unfold ends in A, G. rewrite A, G. reflexivity.
    + exists (prelude user pass v ++ AUpgrade true :: [AEnclave (QNew id1) (PNew c s1); ASend s1 true] ++ t), r0, (map AClose l).
      split; [now rewrite <- !app_assoc|]. unfold l. destruct (close_code e); cbn; eauto.
Qed.
Lemma close_tr user pass ep code : In (AClose code) (serve_client user pass ep) -> 
  code = WS_InternalError \/
  exists a c reads t e r, talk c reads t (Some e) /\ close_code e = Some code /\ serve_client user pass ep = a ++ t ++ [AEnclave (QEnd c) r; AClose code].
Proof.
  intros Hin. destruct (asks_dec (serve_client user pass ep)) as [Ha|Ha].
  2: { destruct (no_asks _ _ _ Ha) as (_ & _ & _ & _ & F & _). exfalso. clear Ha. revert F. generalize (serve_client user pass ep) Hin. clear Hin.
       induction l as [|x l IH]; [auto|]. intros [->|Hin] F; [discriminate|]. apply IH; [exact Hin|]. unfold closes, pick in *. cbn in F. apply app_eq_nil in F as [_ F]. exact F. }
  destruct (serve_asks _ _ _ Ha) as (Hs & v & N1 & N2 & Hv & id & Hn & [(reads & t & -> & Hc & E)|(p & -> & E)]); rewrite E in Hin.
  2: { exfalso. cbn in Hin. intuition discriminate. }
  destruct Hc as [p Hp|c s r0|c s t Ht0|c s t e r0 Ht0].
  - left. cbn in Hin. repeat (destruct Hin as [Hin|Hin]; [try discriminate Hin|]); try contradiction. injection Hin as <-. reflexivity.
  - left. cbn in Hin. repeat (destruct Hin as [Hin|Hin]; [try discriminate Hin|]); try contradiction. injection Hin as <-. reflexivity.
  - exfalso. apply in_app_or in Hin as [Hin|Hin]; [cbn in Hin; intuition discriminate|]. destruct Hin as [Hin|Hin]; [discriminate|].
    apply in_app_or in Hin as [Hin|Hin]; [cbn in Hin; intuition discriminate|]. destruct (talk_ends _ _ _ _ Ht0) as [_ B].
    assert (Hx : In code (closes t)) by (apply in_flat_map; exists (AClose code); split; [exact Hin|now left]). now rewrite B in Hx.
  - right. exists (prelude user pass v ++ AUpgrade true :: [AEnclave (QNew id) (PNew c s); ASend s true]), c, reads, t, e, r0. split; [exact Ht0|].
    apply in_app_or in Hin as [Hin|Hin]; [cbn in Hin; intuition discriminate|]. destruct Hin as [Hin|Hin]; [discriminate|].
    apply in_app_or in Hin as [Hin|Hin]; [cbn in Hin; intuition discriminate|]. apply in_app_or in Hin as [Hin|[Hin|Hin]]; [|discriminate|].
    { exfalso. destruct (talk_ends _ _ _ _ Ht0) as [_ B].
      assert (Hx : In code (closes t)) by (apply in_flat_map; exists (AClose code); split; [exact Hin|now left]). now rewrite B in Hx. }
    rewrite E. destruct (close_code e) as [cc|]; cbn in Hin; [|destruct Hin]. destruct Hin as [[= ->]|[]]. split; [reflexivity|]. now rewrite <- !app_assoc.
Qed.
(* the codes that come from errors of the enclave *)
Lemma close_enclave_range code : close_enclave code = WS_BadArgs \/ close_enclave code = WS_InternalError \/ close_enclave code = WS_Unavailable.
Proof. unfold close_enclave. repeat match goal with |- context [if ?b then _ else _] => destruct b end; auto. Qed.
Lemma unavailable_codes code : close_enclave code = WS_Unavailable <-> code = W_TransactionCancelled \/ code = W_LeaderUnknown.
Proof.
  split; [|intros [-> | ->]; reflexivity]. unfold close_enclave, one_of. cbn [existsb]. intros H.
  repeat match type of H with context [if ?b then _ else _] => destruct b eqn:?; try discriminate H end.
  rewrite Bool.orb_false_r in *. match goal with X : orb _ _ = true |- _ => apply Bool.orb_true_iff in X as [X|X]; apply N.eqb_eq in X; subst code end; auto.
Qed.
Lemma closed_unavailable user pass ep : In (AClose WS_Unavailable) (serve_client user pass ep) ->
  exists a c d code r, serve_client user pass ep = a ++ [AEnclave (QMsg c d) (PStatus code); AEnclave (QEnd c) r; AClose WS_Unavailable] /\
    (code = W_TransactionCancelled \/ code = W_LeaderUnknown).
Proof.
  intros H. destruct (close_tr _ _ _ _ H) as [?|(a & c & reads & t & e & r & Ht & He & ->)]; [discriminate|].
  destruct e as [|code| |]; try discriminate. injection He as He. apply unavailable_codes in He.
  destruct (talk_enclave _ _ _ _ Ht) as (a' & d & -> & _). exists (a ++ a'), c, d, code, r. split; [now rewrite <- !app_assoc|exact He].
Qed.
Lemma closed_normal user pass ep : In (AClose WS_Normal) (serve_client user pass ep) ->
  exists a c d d' b, serve_client user pass ep = a ++ AEnclave (QMsg c d) (PMsg d' true) :: b /\ passed b = [] /\ got b = [].
Proof.
  intros H. destruct (close_tr _ _ _ _ H) as [?|(a & c & reads & t & e & r & Ht & He & ->)]; [discriminate|].
  destruct e as [|code| |]; try discriminate.
  2: { exfalso. injection He as He. destruct (close_enclave_range code) as [X|[X|X]]; rewrite X in He; discriminate. }
  destruct (talk_nil _ _ _ Ht) as (a' & d & d' & ->). exists (a ++ a'), c, d, d', ((match d' with [] => [] | _ => [ASend d' true] end) ++ [AEnclave (QEnd c) r; AClose WS_Normal]).
  split; [now rewrite <- !app_assoc|]. destruct d'; auto.
Qed.
Lemma error_closes user pass ep c d code : In (AEnclave (QMsg c d) (PStatus code)) (serve_client user pass ep) -> code <> 0 ->
  exists a r, serve_client user pass ep = a ++ [AEnclave (QMsg c d) (PStatus code); AEnclave (QEnd c) r; AClose (close_enclave code)].
Proof.
  intros Hin H0. destruct (serve_asks user pass ep) as (Hs & v & N1 & N2 & Hv & id & Hn & [(reads & t & -> & Hc & E)|(p & -> & E)]); [do 2 eexists; exact Hin| |].
  2: { rewrite E in Hin. exfalso. cbn in Hin. intuition discriminate. }
  rewrite E in Hin |- *. destruct Hc as [p Hp|c1 s r0|c1 s t Ht0|c1 s t e r0 Ht0].
  1-2: exfalso; cbn in Hin; intuition discriminate.
  - exfalso. apply in_app_or in Hin as [Hin|Hin]; [cbn in Hin; intuition discriminate|]. destruct Hin as [Hin|Hin]; [discriminate|].
    apply in_app_or in Hin as [Hin|Hin]; [cbn in Hin; intuition discriminate|]. destruct (talk_error _ _ _ _ _ _ _ Ht0 Hin H0) as (? & _ & ?). discriminate.
  - apply in_app_or in Hin as [Hin|Hin]; [cbn in Hin; intuition discriminate|]. destruct Hin as [Hin|Hin]; [discriminate|].
    apply in_app_or in Hin as [Hin|Hin]; [cbn in Hin; intuition discriminate|]. apply in_app_or in Hin as [Hin|[Hin|Hin]]; [|discriminate|].
    2: { apply in_map_iff in Hin as (? & ? & _). discriminate. }
    destruct (talk_calls _ _ _ _ _ _ Ht0 Hin) as (d1 & [= <- <-]).
    destruct (talk_error _ _ _ _ _ _ _ Ht0 Hin H0) as (a & -> & [= ->]).
    exists (prelude user pass v ++ AUpgrade true :: [AEnclave (QNew id) (PNew c s); ASend s true] ++ a), r0. cbn [close_code map]. now rewrite <- !app_assoc.
Qed.
End W.
