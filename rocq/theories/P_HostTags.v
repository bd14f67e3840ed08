(* C97: what clients send cannot make the host keep ever more counters, and what
   is counted is what was the case. *)
From Verif Require Import Base HostTags.
From Coq Require Import String Ascii FinFun.
Open Scope string_scope.
Open Scope list_scope.
Open Scope N_scope.

(* The five values that a platform label has. *)
Definition platforms : list (list rune) :=
  map runes ["unknown"; "android"; "desktop"; "ios"; "unexpected-parse-failure"].

(* Whatever the user agent is, it makes one of five labels. *)
Lemma tags_five s : exists p, In p platforms /\ parse_tags s = [LText "platform" p].
Proof.
  unfold parse_tags, parse_user_agent. destruct (ua_match s) as [[m v]|].
  - exists (parse_platform m). split; [|reflexivity]. unfold parse_platform.
    destruct (runes_eqb _ _); [cbn; tauto|]. destruct (runes_eqb _ _); [cbn; tauto|].
    destruct (runes_eqb _ _); cbn; tauto.
  - exists (runes "unknown"). cbn. tauto.
Qed.
Theorem C97_user_agent_labels_partial s : exists p, In p platforms /\ parse_tags s = [LText "platform" p].
Proof. apply tags_five. Qed.

(* A user agent of plain letters is counted for what it names: "Signal-", the
   platform in any case, a slash, a version without spaces, and then nothing or
   a space and more without line breaks. *)
Definition ascii_lower (r : rune) : rune := if (65 <=? r) && (r <=? 90) then r + 32 else r.
Definition names (p s : list rune) : Prop :=
  exists a m v t, s = a ++ m ++ [47] ++ v ++ t /\
    map ascii_lower a = runes "signal-" /\ map ascii_lower m = p /\
    v <> [] /\ ~ In 32 v /\ (t = [] \/ exists u, t = 32 :: u /\ u <> [] /\ ~ In 10 u).

Lemma folds_ascii a b : b < 128 -> folds a b = true -> (97 <= a <= 122 \/ a = 45) -> ascii_lower b = a.
Proof.
  intros Hb H Ha. unfold folds in H. unfold ascii_lower.
  destruct (N.eqb_spec b 383); [lia|]. destruct (N.eqb_spec b 8490); [lia|].
  rewrite !Bool.andb_false_r, !Bool.orb_false_r in H.
  destruct (N.eqb_spec b a).
  { subst. destruct (N.leb_spec 65 a), (N.leb_spec a 90); cbn; lia. }
  cbn [orb] in H. apply Bool.andb_true_iff in H as [H1 H2]. apply N.eqb_eq in H2.
  apply Bool.andb_true_iff in H1 as [H0 H1]. apply N.leb_le in H0, H1.
  destruct (N.leb_spec 65 b), (N.leb_spec b 90); cbn; lia.
Qed.
Lemma lower_folds a b : ascii_lower b = a -> (97 <= a <= 122 \/ a = 45) -> folds a b = true.
Proof.
  unfold ascii_lower, folds. intros H Ha.
  destruct (N.leb_spec 65 b), (N.leb_spec b 90); cbn [andb] in H.
  2-4: subst; rewrite N.eqb_refl; reflexivity.
  subst a. rewrite (proj2 (N.leb_le 97 (b + 32))), (proj2 (N.leb_le (b + 32) 122)), N.eqb_refl by lia.
  cbn. rewrite Bool.orb_true_r. reflexivity.
Qed.

Definition plain (p : list rune) : Prop := Forall (fun a => 97 <= a <= 122 \/ a = 45) p.
Lemma literal_some p : plain p -> forall s m r, Forall (fun b => b < 128) s -> literal p s = Some (m, r) ->
  s = m ++ r /\ map ascii_lower m = p.
Proof.
  induction 1 as [|a p Ha Hp IH]; intros s m r F H; cbn [literal] in H.
  - destruct s; injection H as <- <-; auto.
  - destruct s as [|b s]; [discriminate|]. destruct (folds a b) eqn:E; [|discriminate].
    inversion F; subst. destruct (literal p s) as [[m' r']|] eqn:L; [|discriminate]. injection H as <- <-.
    destruct (IH _ _ _ H3 L) as [-> M]. split; [reflexivity|]. cbn [map]. rewrite M.
    f_equal. now apply folds_ascii.
Qed.
Lemma literal_app p : plain p -> forall m r, map ascii_lower m = p -> literal p (m ++ r) = Some (m, r).
Proof.
  induction 1 as [|a p Ha Hp IH]; intros m r H; destruct m as [|b m]; try discriminate.
  - destruct r; reflexivity.
  - injection H as E H. cbn [app literal]. rewrite (lower_folds a b E Ha), (IH m r H). reflexivity.
Qed.
Lemma until_space_spec s v t : until_space s = (v, t) ->
  s = v ++ t /\ ~ In 32 v /\ (t = [] \/ exists u, t = 32 :: u).
Proof.
  revert v t. induction s as [|c s IH]; intros v t H; cbn [until_space] in H.
  - injection H as <- <-. cbn. auto.
  - destruct (N.eqb_spec c 32).
    + injection H as <- <-. subst. split; [reflexivity|]. split; [intros []|]. right. now exists s.
    + destruct (until_space s) as [v' t'] eqn:E. injection H as <- <-.
      destruct (IH _ _ eq_refl) as (-> & Nv & T). split; [reflexivity|]. split; [|exact T].
      intros [?|?]; [congruence|auto].
Qed.
Lemma until_space_app v t : ~ In 32 v -> (t = [] \/ exists u, t = 32 :: u) -> until_space (v ++ t) = (v, t).
Proof.
  induction v as [|c v IH]; intros Nv T; cbn [app until_space].
  - destruct T as [->|[u ->]]; reflexivity.
  - destruct (N.eqb_spec c 32); [subst; exfalso; apply Nv; now left|].
    rewrite IH; auto. intros I. apply Nv. now right.
Qed.
Lemma no_newline u : forallb (fun c => negb (c =? 10)) u = true <-> ~ In 10 u.
Proof.
  rewrite forallb_forall. split.
  - intros H I. specialize (H _ I). discriminate.
  - intros H x Hx. destruct (N.eqb_spec x 10); [subst; contradiction|reflexivity].
Qed.

Lemma match_after_iff p r : plain p -> Forall (fun b => b < 128) r ->
  forall m v, (match_after p r = Some (m, v) <-> exists t, r = m ++ [47] ++ v ++ t /\ map ascii_lower m = p /\
    v <> [] /\ ~ In 32 v /\ (t = [] \/ exists u, t = 32 :: u /\ u <> [] /\ ~ In 10 u)).
Proof.
  intros Hp F m v. unfold match_after. split.
  - destruct (literal p r) as [[m' r']|] eqn:L; [|discriminate].
    destruct (literal_some p Hp r m' r' F L) as [-> M].
    destruct r' as [|c r']; [discriminate|].
    destruct (N.eq_dec c 47) as [->|Nc].
    2:{ intros H. exfalso. repeat (match type of H with context [match ?x with _ => _ end] => is_var x; destruct x end); try discriminate; congruence. }
    destruct (until_space r') as [v' t] eqn:U. apply until_space_spec in U as (-> & Nv & T).
    destruct v' as [|c v']; [discriminate|]. destruct (ends_well t) eqn:E; [|discriminate].
    intros H. injection H as <- <-. exists t. split; [reflexivity|]. split; [exact M|].
    split; [discriminate|]. split; [exact Nv|]. destruct T as [->|[u ->]]; [now left|right].
    exists u. split; [reflexivity|]. cbn [ends_well] in E. destruct u; [discriminate|].
    split; [discriminate|]. now apply no_newline.
  - intros (t & -> & M & Hv & Nv & T). rewrite (literal_app p Hp m _ M). cbn [app].
    rewrite until_space_app; [|exact Nv|destruct T as [->|(u & -> & _)]; eauto].
    destruct v as [|c v]; [contradiction|]. assert (E : ends_well t = true).
    { destruct T as [->|(u & -> & Hu & Nu)]; [reflexivity|]. cbn [ends_well]. destruct u; [contradiction|].
      now apply no_newline. }
    rewrite E. reflexivity.
Qed.

Lemma plain_words : plain (runes "signal-") /\ plain (runes "android") /\ plain (runes "desktop") /\ plain (runes "ios").
Proof.
  assert (X : forall p, forallb (fun a => ((97 <=? a) && (a <=? 122)) || (a =? 45)) p = true -> plain p).
  { intros p H. apply Forall_forall. intros a Ha. rewrite forallb_forall in H. specialize (H a Ha).
    apply Bool.orb_true_iff in H as [H|H]; [left|right; now apply N.eqb_eq].
    apply Bool.andb_true_iff in H as [H1 H2]. apply N.leb_le in H1, H2. auto. }
  split; [|split; [|split]]; apply X; reflexivity.
Qed.

Lemma lower_same m : Forall (fun b => b < 128) m -> map to_lower m = map ascii_lower m.
Proof.
  induction 1 as [|b m Hb Hm IH]; [reflexivity|]. cbn [map]. rewrite IH. f_equal. unfold to_lower, ascii_lower.
  destruct ((65 <=? b) && (b <=? 90)); [reflexivity|]. destruct (N.eqb_spec b 8490); [lia|reflexivity].
Qed.
Lemma platform_is m w : Forall (fun b => b < 128) m -> map ascii_lower m = w -> In w alternatives -> parse_platform m = w.
Proof.
  intros F E I. unfold parse_platform. rewrite lower_same, E by exact F.
  cbn [alternatives In] in I. destruct I as [<-|[<-|[<-|[]]]]; reflexivity.
Qed.
Lemma first_match_some ps s m v : first_match ps s = Some (m, v) -> exists p, In p ps /\ match_after p s = Some (m, v).
Proof.
  induction ps as [|p ps IH]; cbn [first_match]; [discriminate|].
  destruct (match_after p s) eqn:E; [intros [= ->]; exists p; cbn; auto|].
  intros H. destruct (IH H) as (q & I & M). exists q. cbn. auto.
Qed.
Lemma first_match_none ps s : first_match ps s = None -> forall p, In p ps -> match_after p s = None.
Proof.
  induction ps as [|p ps IH]; cbn [first_match]; [intros _ p []|].
  destruct (match_after p s) eqn:E; [discriminate|]. intros H q [<-|I]; auto.
Qed.
Lemma alt_plain w : In w alternatives -> plain w.
Proof. destruct plain_words as (_ & A & B & C). cbn [alternatives In]. intros [<-|[<-|[<-|[]]]]; assumption. Qed.

Lemma ua_match_iff s : Forall (fun b => b < 128) s -> forall w, In w alternatives ->
  ((exists m v, ua_match s = Some (m, v) /\ map ascii_lower m = w) <-> names w s).
Proof.
  intros F w I. unfold ua_match, names. split.
  - intros (m & v & H & Hm). destruct (literal (runes "signal-") s) as [[a r]|] eqn:L; [|discriminate].
    destruct (literal_some _ (proj1 plain_words) _ _ _ F L) as [-> A]. apply Forall_app in F as [_ F].
    apply first_match_some in H as (p & Ip & H). apply match_after_iff in H as (t & -> & Hp & T); auto using alt_plain.
    exists a, m, v, t. auto.
  - intros (a & m & v & t & -> & A & M & T). rewrite (literal_app _ (proj1 plain_words) a _ A).
    apply Forall_app in F as [_ F].
    destruct (first_match alternatives (m ++ [47] ++ v ++ t)) as [[m' v']|] eqn:H.
    + exists m', v'. split; [reflexivity|]. apply first_match_some in H as (p & Ip & H).
      apply match_after_iff in H as (t' & E & Hp & _); auto using alt_plain.
      assert (S : forall x y, map ascii_lower x = w -> map ascii_lower y = p -> forall q r,
                x ++ 47 :: q = y ++ 47 :: r -> w = p).
      { intros x y Hx Hy q r Exy. assert (X : forall k z, plain k -> map ascii_lower z = k -> ~ In 47 z).
        { intros k z Hk Hz In47. apply (in_map ascii_lower) in In47. rewrite Hz in In47.
          eapply Forall_forall in In47; [|exact Hk]. cbn in In47. lia. }
        pose proof (X _ _ (alt_plain _ I) Hx) as Nx. pose proof (X _ _ (alt_plain _ Ip) Hy) as Ny.
        assert (x = y); [|congruence]. clear - Exy Nx Ny. revert y Exy Ny. induction x as [|c x IHx]; intros [|d y] E Ny.
        - reflexivity.
        - exfalso. cbn [app] in E. injection E as Ec _. apply Ny. left. congruence.
        - exfalso. cbn [app] in E. injection E as Ec _. apply Nx. left. congruence.
        - cbn [app] in E. injection E as -> E. f_equal. apply IHx; auto; intros Z; [apply Nx|apply Ny]; now right. }
      rewrite (S m m' M Hp _ _ E). exact Hp.
    + exfalso. pose proof (first_match_none _ _ H w I) as N.
      assert (match_after w (m ++ [47] ++ v ++ t) = Some (m, v)); [|congruence].
      apply match_after_iff; auto using alt_plain. exists t. auto.
Qed.

Theorem C97_plain_user_agents s w : Forall (fun b => b < 128) s -> In w (map runes ["android"; "desktop"; "ios"]) ->
  (parse_tags s = [LText "platform" w] <-> names w s).
Proof.
  intros F I. change (In w alternatives) in I. rewrite <- (ua_match_iff s F w I).
  unfold parse_tags, parse_user_agent. destruct (ua_match s) as [[m v]|] eqn:U.
  - assert (X : exists p, In p alternatives /\ map ascii_lower m = p /\ Forall (fun b => b < 128) m).
    { pose proof U as V. unfold ua_match in V. destruct (literal (runes "signal-") s) as [[a r]|] eqn:L; [|discriminate].
      destruct (literal_some _ (proj1 plain_words) _ _ _ F L) as [-> A]. apply Forall_app in F as [_ F].
      apply first_match_some in V as (p & Ip & H). exists p. split; [exact Ip|].
      apply match_after_iff in H as (t & -> & Hp & _); auto using alt_plain. split; [exact Hp|].
      now apply Forall_app in F as [F _]. }
    destruct X as (p & Ip & Hp & Fm). rewrite (platform_is m p Fm Hp Ip). split.
    + intros [= ->]. exists m, v. auto.
    + intros (m' & v' & [= <- <-] & E). congruence.
  - split; [|intros (m & v & [=] & _)]. intros [= <-].
    cbn [alternatives In] in I. destruct I as [C|[C|[C|[]]]]; discriminate C.
Qed.
Example C97_plain_case : parse_tags (runes "SIGNAL-Android/5.1 (x y)") = [LText "platform" (runes "android")] /\
  parse_tags (runes "Signal-Android/ 5") = [LText "platform" (runes "unknown")].
Proof. split; reflexivity. Qed.

(* But "should never happen" does: the letter long s matches the pattern and is
   not made an s by ToLower. *)
Theorem C97_unexpected_platform_refuted v : v <> [] -> ~ In 32 v ->
  parse_tags (runes "Signal-io" ++ [383; 47] ++ v) = [LText "platform" (runes "unexpected-parse-failure")].
Proof.
  intros Hv Nv. unfold parse_tags, parse_user_agent.
  assert (M : ua_match (runes "Signal-io" ++ [383; 47] ++ v) = Some (runes "io" ++ [383], v)).
  { unfold ua_match. cbn [runes app]. cbn -[until_space ends_well].
    pose proof (until_space_app v [] Nv (or_introl eq_refl)) as U. rewrite app_nil_r in U. rewrite U.
    destruct v; [contradiction|reflexivity]. }
  rewrite M. reflexivity.
Qed.

(* The counters of one path: bounded by the methods and the statuses. *)
Definition all_labels (methods : list (list rune)) (path : list rune) (statuses : list N) : list (list label) :=
  flat_map (fun p => flat_map (fun m => map (fun s =>
    [LText "platform" p; LText "method" m; LText "endpoint" path; LNum "status" s]) statuses) methods) platforms.

Lemma wrapped_status acts : fst (wrapped acts) = true ->
  In (snd (wrapped acts)) (200 :: 101 :: flat_map (fun a => match a with WHeader s => [s] | _ => [] end) acts).
Proof.
  unfold wrapped. induction acts as [|a acts IH] using rev_ind; [discriminate|].
  rewrite fold_left_app. cbn [fold_left]. set (w := fold_left wstep acts (false, 0)) in *.
  rewrite flat_map_app. intros H. destruct a; cbn [wstep flat_map app] in *.
  - rewrite app_nil_r. destruct (fst w); [apply IH; reflexivity|cbn; auto].
  - cbn [snd]. right. right. apply in_or_app. right. now left.
  - rewrite app_nil_r. destruct (fst w); [apply IH; reflexivity|cbn; auto].
Qed.
Theorem C97_bounded_by_the_methods_partial methods path statuses check inner r ls :
  (forall q, incl (flat_map (fun a => match a with WHeader s => [s] | _ => [] end) (inner q)) statuses) ->
  In (h_method r) methods -> serve_path path check inner r = Some ls ->
  In ls (all_labels methods path (401 :: 200 :: 101 :: statuses)).
Proof.
  intros Hs Hm H. unfold serve_path in H. unfold runes_eqb in H.
  destruct (list_eq_dec N.eq_dec (h_path r) path) as [E|]; [|discriminate].
  unfold instrument in H. set (acts := auth_acts check inner r) in *.
  destruct (fst (wrapped acts)) eqn:F; [|discriminate]. injection H as <-.
  destruct (tags_five (h_agent r)) as (p & Ip & ->). rewrite E. cbn [app].
  apply in_flat_map. exists p. split; [exact Ip|]. apply in_flat_map. exists (h_method r). split; [exact Hm|].
  apply (in_map (fun s => [LText "platform" p; LText "method" (h_method r); LText "endpoint" path; LNum "status" s])).
  pose proof (wrapped_status acts F) as W. unfold acts, auth_acts in W |- *.
  destruct (check (h_cred r)).
  - destruct W as [<-|[<-|W]]; cbn; auto. right. right. right. apply (Hs r), W.
  - left. reflexivity.
Qed.

(* But a method is whatever token the client sends, and is counted before anyone
   has checked who the client is: with methods of [n] characters there are 2^n
   requests that are refused, each of which makes a counter of its own. *)
Fixpoint words (n : nat) : list (list rune) :=
  match n with O => [[]] | S k => map (cons 65) (words k) ++ map (cons 66) (words k) end.
Lemma words_length n : List.length (words n) = Nat.pow 2 n.
Proof. induction n; [reflexivity|]. cbn [words]. rewrite app_length, !map_length. unfold rune in *. rewrite IHn. cbn [Nat.pow]. lia. Qed.
Lemma nodup_app {A} (l k : list A) : NoDup l -> NoDup k -> (forall x, In x l -> ~ In x k) -> NoDup (l ++ k).
Proof.
  induction 1 as [|x l Nx Nl IH]; intros Nk D; [exact Nk|]. cbn [app]. constructor.
  - intros I. apply in_app_or in I as [I|I]; [contradiction|]. apply (D x); [now left|exact I].
  - apply IH; auto. intros y Hy. apply D. now right.
Qed.
Lemma words_nodup n : NoDup (words n).
Proof.
  induction n; cbn [words]; [constructor; [intros []|constructor]|].
  assert (C : forall c, NoDup (map (cons c) (words n))).
  { intros c. apply Injective_map_NoDup; [|exact IHn]. intros x y E. now injection E. }
  assert (D : forall x, In x (map (cons 65) (words n)) -> ~ In x (map (cons 66) (words n))).
  { intros x H1 H2. apply in_map_iff in H1 as (u & <- & _). apply in_map_iff in H2 as (v & E & _). discriminate. }
  now apply nodup_app.
Qed.
Lemma words_in n w : In w (words n) -> List.length w = n /\ forallb token_rune w = true.
Proof.
  revert w. induction n; intros w; cbn [words].
  - intros [<-|[]]. auto.
  - rewrite in_app_iff, !in_map_iff. intros [(u & <- & I)|(u & <- & I)]; apply IHn in I as [L T];
      (split; [cbn; now rewrite L|cbn [forallb]; rewrite T; reflexivity]).
Qed.
Theorem C97_methods_refuted path check inner cred agent : check cred = false -> forall n, (0 < n)%nat ->
  exists rs : list hreq, List.length rs = Nat.pow 2 n /\
    Forall (fun r => valid_method (h_method r) = true /\ List.length (h_method r) = n /\
                     h_cred r = cred /\ h_agent r = agent /\ auth_acts check inner r = [WHeader 401]) rs /\
    Forall (fun r => serve_path path check inner r <> None) rs /\
    NoDup (map (serve_path path check inner) rs).
Proof.
  intros C n Hn. set (rq := fun m => HReq m path agent cred).
  assert (V : forall m, serve_path path check inner (rq m) =
    Some (parse_tags agent ++ [LText "method" m; LText "endpoint" path; LNum "status" 401])).
  { intros m. unfold serve_path, runes_eqb, rq. cbn [h_path].
    destruct (list_eq_dec N.eq_dec path path); [|contradiction]. unfold instrument, auth_acts. cbn [h_cred].
    rewrite C. reflexivity. }
  exists (map rq (words n)). split; [now rewrite map_length, words_length|]. split; [|split].
  - apply Forall_map, Forall_forall. intros m Hm. apply words_in in Hm as [L T]. cbn [rq h_method h_cred h_agent].
    split; [destruct m; [cbn in L; lia|exact T]|]. split; [exact L|]. split; [reflexivity|]. split; [reflexivity|].
    unfold auth_acts. cbn. now rewrite C.
  - apply Forall_map, Forall_forall. intros m _. rewrite V. discriminate.
  - rewrite map_map. apply Injective_map_NoDup; [|apply words_nodup].
    intros x y E. rewrite !V in E. injection E as E. apply app_inv_head in E. now injection E.
Qed.

(* The status that is counted is the one that was sent, for handlers that set it
   before anything else if at all: net/http sends the first. *)
Definition sent (acts : list wact) : option N :=
  match acts with [] => None | WWrite :: _ => Some 200 | WHeader s :: _ => Some s | WHijack :: _ => Some 101 end.
Definition header_first (acts : list wact) : Prop :=
  forall s, ~ In (WHeader s) (tl acts).
Lemma wrapped_keeps acts : (forall s, ~ In (WHeader s) acts) -> forall w, fst w = true -> fold_left wstep acts w = w.
Proof.
  induction acts as [|a acts IH]; intros N w F; [reflexivity|]. cbn [fold_left].
  assert (wstep w a = w) as ->.
  { destruct a; cbn [wstep]; rewrite ?F; auto. exfalso. apply (N status). now left. }
  apply IH; auto. intros s I. apply (N s). now right.
Qed.
Theorem C97_status_is_what_was_sent_partial handler r : header_first (handler r) ->
  match sent (handler r) with
  | None => instrument handler r = None
  | Some s => exists p, instrument handler r =
      Some [p; LText "method" (h_method r); LText "endpoint" (h_path r); LNum "status" s]
  end.
Proof.
  unfold header_first, instrument, wrapped. intros H. destruct (tags_five (h_agent r)) as (p & _ & ->).
  destruct (handler r) as [|a acts]; [reflexivity|]. cbn [tl] in H. cbn [fold_left].
  rewrite wrapped_keeps; [|exact H|destruct a; reflexivity]. destruct a; cbn; eauto.
Qed.
Example C97_case :
  let h := auth_acts (fun c => match fst c with [] => false | _ => true end) (fun _ => [WHijack]) in
  instrument h (HReq (runes "GET") (runes "/v1/x") (runes "Signal-iOS/6") ([1], [])) =
    Some [LText "platform" (runes "ios"); LText "method" (runes "GET"); LText "endpoint" (runes "/v1/x"); LNum "status" 101] /\
  instrument h (HReq (runes "FOO") (runes "/v1/x") (runes "curl") ([], [])) =
    Some [LText "platform" (runes "unknown"); LText "method" (runes "FOO"); LText "endpoint" (runes "/v1/x"); LNum "status" 401].
Proof. split; reflexivity. Qed.

Print Assumptions C97_user_agent_labels_partial.
Print Assumptions C97_plain_user_agents.
Print Assumptions C97_unexpected_platform_refuted.
Print Assumptions C97_bounded_by_the_methods_partial.
Print Assumptions C97_methods_refuted.
Print Assumptions C97_status_is_what_was_sent_partial.
