(* C98: a user is let in as often as the limit says, and no more; other users do
   not matter. *)
From Verif Require Import Base Rate.
Open Scope Z_scope.

(* How often a user was let in at or after a moment. *)
Fixpoint let_in (u : bytes) (a : Z) (log : list (bytes * Z * answer)) : Z :=
  match log with
  | [] => 0
  | (v, t, GoesOn) :: r =>
      (if list_eq_dec N.eq_dec v u then if a <=? t then 1 else 0 else 0) + let_in u a r
  | _ :: r => let_in u a r
  end.
(* The limit: in the time from [a] to [t], as many as the bucket holds, and what
   leaks from it in that time. *)
Definition within (l : limit) (count a t : Z) : Prop := count * period l <= burst l * period l + (t - a) * rate l.

Definition time_of (e : event) : Z := match e with Asks _ t | Fails _ t | Expires _ t => t end.
(* Time does not go back. *)
Fixpoint ordered (from : Z) (es : list event) : Prop :=
  match es with [] => True | e :: r => from <= time_of e /\ ordered (time_of e) r end.
Definition answers (e : event) : Prop := match e with Fails _ _ => False | _ => True end.
Definition sane (l : limit) : Prop := 0 < rate l /\ 0 < period l /\ 0 <= burst l.

Lemma let_in_app u a x y : let_in u a (x ++ y) = let_in u a x + let_in u a y.
Proof.
  induction x as [|[[v t] o] x IH]; cbn [app let_in]; [lia|]. destruct o; [|exact IH]. rewrite IH. lia.
Qed.
Lemma let_in_nonneg u a x : 0 <= let_in u a x.
Proof.
  induction x as [|[[v t] o] x IH]; cbn [let_in]; [lia|]. destruct o; [|exact IH].
  destruct (list_eq_dec _ _ _); [|lia]. destruct (a <=? t); lia.
Qed.
Lemma key_inj name u v : redis_key name u = redis_key name v -> u = v.
Proof. unfold redis_key. apply app_inv_head. Qed.
Lemma set_same st k v : set st k v k = v.
Proof. unfold set. destruct (list_eq_dec _ _ _); [reflexivity|contradiction]. Qed.
Lemma set_other st k v j : j <> k -> set st k v j = st j.
Proof. unfold set. intros. destruct (list_eq_dec _ _ _); [contradiction|reflexivity]. Qed.

(* The bucket of a user at a moment [n]. *)
Definition level (l : limit) (o : option Z) (now : Z) : Z :=
  Z.max (match o with Some x => x | None => now * rate l end) (now * rate l).
Record inv (l : limit) (name u : bytes) (st : store) (log : list (bytes * Z * answer)) (T : Z) : Prop := {
  inv0 : forall a, T < a -> let_in u a log = 0;
  inv1 : forall a, a <= T -> a * rate l + let_in u a log * period l <= level l (st (redis_key name u)) T;
  inv2 : T * rate l < level l (st (redis_key name u)) T ->
         exists a, a <= T /\ level l (st (redis_key name u)) T = a * rate l + let_in u a log * period l }.

Lemma level_later l o T t : 0 < rate l -> T <= t -> level l o t = Z.max (level l o T) (t * rate l).
Proof. intros R H. unfold level. assert (T * rate l <= t * rate l) by nia. destruct o; lia. Qed.

Lemma inv_later l name u st log T t : sane l -> T <= t -> inv l name u st log T -> inv l name u st log t.
Proof.
  intros (R & P & B) H [I0 I1 I2]. assert (T * rate l <= t * rate l) by nia. constructor.
  - intros a Ha. apply I0. lia.
  - intros a Ha. rewrite (level_later l _ T t R H). destruct (Z_le_gt_dec a T) as [L|G].
    + specialize (I1 a L). lia.
    + rewrite I0 by lia. assert (a * rate l <= t * rate l) by nia. lia.
  - rewrite (level_later l _ T t R H). intros Hl. destruct I2 as (a & Ha & E); [lia|].
    exists a. split; [lia|]. lia.
Qed.

(* At the moment itself: the answer is by the level. *)
Lemma allow_is l st k t : sane l ->
  allow l st k t =
  if level l (st k) t + period l <=? t * rate l + burst l * period l
  then (set st k (Some (level l (st k) t + period l)), None)
  else (st, Some (level l (st k) t + period l - burst l * period l - t * rate l)).
Proof.
  intros (R & P & B). unfold allow. fold (level l (st k) t).
  assert (t * rate l <= level l (st k) t) by (unfold level; lia).
  destruct (Z.leb_spec (level l (st k) t + period l) (t * rate l + burst l * period l));
  match goal with |- (if ?x <? 0 then _ else _) = _ => destruct (Z.ltb_spec x 0) end; try lia.
  - destruct (Z.ltb_spec 0 (level l (st k) t + period l - t * rate l)); [reflexivity|lia].
  - f_equal. f_equal. lia.
Qed.

Lemma inv_step l name u st log T e : sane l -> answers e -> T <= time_of e -> inv l name u st log T ->
  inv l name u (fst (step l name st e)) (log ++ snd (step l name st e)) (time_of e).
Proof.
  intros S A H I. apply (inv_later l name u st log T _ S H) in I. clear H T.
  pose proof S as (R & P & B).
  destruct e as [v t|v t|k t]; cbn [time_of step] in *; [|destruct A|].
  - rewrite allow_is by assumption. destruct I as [I0 I1 I2].
    destruct (Z.leb_spec (level l (st (redis_key name v)) t + period l) (t * rate l + burst l * period l)) as [L|L]; cbn [fst snd].
    2:{ assert (X : forall a r, let_in u a (log ++ [(v, t, TooMany r)]) = let_in u a log).
        { intros. rewrite let_in_app. cbn [let_in]. lia. }
        constructor.
        - intros. rewrite X. auto.
        - intros. rewrite X. auto.
        - intros H. destruct (I2 H) as (a & Ha & E). exists a. rewrite X. auto. }
    destruct (list_eq_dec N.eq_dec v u) as [->|N].
    + assert (X : forall a, a <= t -> let_in u a (log ++ [(u, t, GoesOn)]) = let_in u a log + 1).
      { intros a Ha. rewrite let_in_app. cbn [let_in]. destruct (list_eq_dec N.eq_dec u u); [|contradiction].
        destruct (Z.leb_spec a t); lia. }
      set (lv := level l (st (redis_key name u)) t) in *.
      assert (V : level l (Some (lv + period l)) t = lv + period l).
      { unfold level. assert (t * rate l <= lv) by (unfold lv, level; lia). lia. }
      constructor; rewrite ?set_same, ?V.
      * intros a Ha. rewrite let_in_app, I0 by assumption. cbn [let_in]. destruct (list_eq_dec N.eq_dec u u); [|contradiction].
        destruct (Z.leb_spec a t); lia.
      * intros a Ha. rewrite X by assumption. specialize (I1 a Ha). lia.
      * intros _. destruct (Z_lt_le_dec (t * rate l) lv) as [G|G].
        -- destruct (I2 G) as (a & Ha & E). exists a. split; [exact Ha|]. rewrite X by assumption. lia.
        -- exists t. split; [lia|]. rewrite X by lia. specialize (I1 t (Z.le_refl _)).
           pose proof (let_in_nonneg u t log). assert (lv = t * rate l) by (unfold lv, level in *; lia).
           assert (let_in u t log = 0) by nia. lia.
    + assert (X : forall a, let_in u a (log ++ [(v, t, GoesOn)]) = let_in u a log).
      { intros a. rewrite let_in_app. cbn [let_in]. destruct (list_eq_dec N.eq_dec v u); [contradiction|lia]. }
      assert (Y : redis_key name u <> redis_key name v) by (intros E; apply key_inj in E; congruence).
      constructor; rewrite ?(set_other _ _ _ _ Y).
      * intros. rewrite X. auto.
      * intros. rewrite X. auto.
      * intros H. destruct (I2 H) as (a & Ha & E). exists a. rewrite X. auto.
  - destruct (st k) as [x|] eqn:Ek; [|cbn; rewrite app_nil_r; exact I].
    destruct (Z.leb_spec x (t * rate l)); cbn [fst snd]; rewrite app_nil_r; [|exact I].
    destruct (list_eq_dec N.eq_dec (redis_key name u) k) as [<-|N].
    + destruct I as [I0 I1 I2]. rewrite Ek in I1, I2.
      assert (V : level l (Some x) t = level l None t) by (unfold level; lia).
      constructor; rewrite ?set_same; rewrite <- ?V; auto.
    + destruct I as [I0 I1 I2]. constructor; rewrite ?(set_other _ _ _ _ N); auto.
Qed.

Fixpoint last_time (from : Z) (es : list event) : Z := match es with [] => from | e :: r => last_time (time_of e) r end.
Lemma inv_run l name u : sane l -> forall es st log T, Forall answers es -> ordered T es -> inv l name u st log T ->
  inv l name u (fst (run l name st es)) (log ++ snd (run l name st es)) (last_time T es).
Proof.
  intros S. induction es as [|e es IH]; intros st log T A O I; cbn [run last_time].
  - cbn. now rewrite app_nil_r.
  - inversion A as [|? ? Ae Ar]; subst. destruct O as [O1 O2].
    pose proof (inv_step l name u st log T e S Ae O1 I) as J.
    destruct (step l name st e) as [st1 o] eqn:E1. cbn [fst snd] in J.
    specialize (IH st1 (log ++ o) (time_of e) Ar O2 J). destruct (run l name st1 es) as [st2 os]. cbn [fst snd] in *.
    now rewrite app_assoc.
Qed.

Lemma inv_empty l name u T : sane l -> inv l name u empty [] T.
Proof.
  intros (R & P & B). constructor; cbn [let_in]; [reflexivity| |]; unfold level, empty.
  - intros a Ha. assert (a * rate l <= T * rate l) by nia. lia.
  - lia.
Qed.

(* After any history in which Redis answered, with requests of any users and
   keys expiring: a request is let in exactly if the user stays within the limit
   with it, however far one looks back.  So nobody gets more than the bucket and
   what leaks from it, and nobody who stays within that is refused. *)
Theorem C98_let_in_exactly_within_the_limit_partial l name T es u t :
  sane l -> ordered T es -> Forall answers es -> last_time T es <= t ->
  let '(st, log) := run l name empty es in
  (snd (step l name st (Asks u t)) = [(u, t, GoesOn)] <->
   forall a, a <= t -> within l (let_in u a log + 1) a t).
Proof.
  intros S O A L. pose proof (inv_run l name u S es empty [] T A O (inv_empty l name u T S)) as I.
  destruct (run l name empty es) as [st log]. cbn [fst snd app] in I.
  apply (inv_later _ _ _ _ _ _ t S L) in I. destruct I as [I0 I1 I2]. pose proof S as (R & P & B).
  cbn [step]. rewrite allow_is by assumption. unfold within. set (lv := level l (st (redis_key name u)) t) in *.
  destruct (Z.leb_spec (lv + period l) (t * rate l + burst l * period l)) as [H|H]; cbn [snd].
  - split; [|reflexivity]. intros _ a Ha. specialize (I1 a Ha). lia.
  - split; [discriminate|]. intros W. exfalso. destruct (Z_lt_le_dec (t * rate l) lv) as [G|G].
    + destruct (I2 G) as (a & Ha & E). specialize (W a Ha). lia.
    + specialize (W t (Z.le_refl _)). pose proof (let_in_nonneg u t log). nia.
Qed.

(* In particular: in any stretch of time, at most the bucket and what leaks. *)
Theorem C98_no_more_than_the_limit_partial l name T es u a :
  sane l -> ordered T es -> Forall answers es -> a <= last_time T es ->
  let log := snd (run l name empty es) in
  let_in u a log = 0 \/ within l (let_in u a log) a (last_time T es).
Proof.
  intros S O A. cbn zeta. revert O A. pattern es. apply rev_ind; [now left|]. clear es. intros e es IH O A L.
  assert (OO : ordered T es /\ last_time T es <= time_of e /\ last_time T (es ++ [e]) = time_of e).
  { clear -O. revert T O. induction es as [|x es IHe]; intros T O; cbn [app ordered last_time] in *.
    - tauto.
    - destruct O as [O1 O2]. destruct (IHe _ O2) as (X & Y & Z). auto. }
  destruct OO as (O1 & Le & E). rewrite E in L |- *. apply Forall_app in A as [A Ae]. inversion Ae as [|? ? Ax _]; subst.
  assert (RR : forall es st, snd (run l name st (es ++ [e])) = snd (run l name st es) ++ snd (step l name (fst (run l name st es)) e)).
  { clear. induction es as [|x es IHe]; intros st; cbn [app run].
    - cbn [fst snd app]. destruct (step l name st e); cbn [snd]. apply app_nil_r.
    - destruct (step l name st x) as [s1 o]. specialize (IHe s1). destruct (run l name s1 (es ++ [e])), (run l name s1 es). cbn [fst snd] in *.
      rewrite IHe. now rewrite app_assoc. }
  rewrite RR, let_in_app.
  pose proof (inv_run l name u S es empty [] T A O1 (inv_empty l name u T S)) as I. cbn [app] in I.
  assert (Old : let_in u a (snd (run l name empty es)) = 0 \/ within l (let_in u a (snd (run l name empty es))) a (time_of e)).
  { destruct (Z_le_gt_dec a (last_time T es)) as [H|H].
    - destruct (IH O1 A H) as [?|W]; [now left|right]. unfold within in *. destruct S as (R & _). nia.
    - left. apply (inv0 _ _ _ _ _ _ I). lia. }
  pose proof (C98_let_in_exactly_within_the_limit_partial l name T es) as X.
  destruct (run l name empty es) as [st log]. cbn [fst snd] in *.
  destruct e as [v t|v t|k t]; cbn [time_of] in *; [|destruct Ax|].
  - specialize (X v t S O1 A Le). cbn [step] in *. rewrite allow_is in X |- * by assumption.
    destruct (_ <=? _); cbn [snd let_in] in *; rewrite ?Z.add_0_r; [|exact Old].
    destruct (list_eq_dec N.eq_dec v u) as [->|]; rewrite ?Z.add_0_r; [|exact Old].
    destruct (Z.leb_spec a t); [|lia]. right. apply X; [reflexivity|exact L].
  - cbn [step]. destruct (st k) as [x|]; [destruct (_ <=? _)|]; cbn [snd let_in]; rewrite Z.add_0_r; exact Old.
Qed.

(* Other users do not matter: what a user is answered depends on that user's own
   requests only. *)
Definition of_user (name u : bytes) (e : event) : bool :=
  match e with
  | Asks v _ | Fails v _ => if list_eq_dec N.eq_dec v u then true else false
  | Expires k _ => if list_eq_dec N.eq_dec k (redis_key name u) then true else false
  end.
Definition told (u : bytes) (log : list (bytes * Z * answer)) : list (bytes * Z * answer) :=
  filter (fun x => if list_eq_dec N.eq_dec (fst (fst x)) u then true else false) log.
Lemma step_local l name u e st st' : sane l -> st (redis_key name u) = st' (redis_key name u) ->
  if of_user name u e
  then fst (step l name st e) (redis_key name u) = fst (step l name st' e) (redis_key name u) /\
       snd (step l name st e) = snd (step l name st' e) /\ told u (snd (step l name st e)) = snd (step l name st e)
  else fst (step l name st e) (redis_key name u) = st' (redis_key name u) /\ told u (snd (step l name st e)) = [].
Proof.
  intros S E. destruct e as [v t|v t|k t]; cbn [of_user step].
  - rewrite !allow_is by assumption. destruct (list_eq_dec N.eq_dec v u) as [->|N].
    + rewrite <- E. destruct (_ <=? _); cbn [fst snd]; rewrite ?set_same; unfold told; cbn [filter fst snd];
      (destruct (list_eq_dec N.eq_dec u u); [|contradiction]); auto.
    + assert (Y : redis_key name u <> redis_key name v) by (intros X; apply key_inj in X; congruence).
      destruct (_ <=? _); cbn [fst snd]; rewrite ?set_other by assumption; unfold told; cbn [filter fst snd];
      (destruct (list_eq_dec N.eq_dec v u); [contradiction|]); auto.
  - destruct (list_eq_dec N.eq_dec v u) as [->|N]; unfold told; cbn [filter fst snd].
    + destruct (list_eq_dec N.eq_dec u u); [|contradiction]. auto.
    + destruct (list_eq_dec N.eq_dec v u); [contradiction|]. auto.
  - destruct (list_eq_dec N.eq_dec k (redis_key name u)) as [->|N].
    + rewrite <- E. destruct (st (redis_key name u)) as [x|] eqn:Es; [destruct (_ <=? _)|]; cbn [fst snd]; rewrite ?set_same;
      (split; [congruence|split; reflexivity]).
    + destruct (st k) as [x|]; [destruct (_ <=? _)|]; cbn [fst snd]; rewrite ?set_other; auto.
Qed.
Lemma told_app u x y : told u (x ++ y) = told u x ++ told u y.
Proof. apply filter_app. Qed.
Theorem C98_other_users_do_not_matter l name u es : sane l ->
  told u (snd (run l name empty es)) = snd (run l name empty (filter (of_user name u) es)).
Proof.
  intros S. assert (G : forall es st st', st (redis_key name u) = st' (redis_key name u) ->
    told u (snd (run l name st es)) = snd (run l name st' (filter (of_user name u) es))).
  { clear es. induction es as [|e es IH]; intros st st' E; cbn [run filter]; [reflexivity|].
    pose proof (step_local l name u e st st' S E) as X. destruct (of_user name u e).
    - cbn [run]. destruct (step l name st e) as [s1 o1], (step l name st' e) as [s2 o2]. cbn [fst snd] in X.
      destruct X as (X1 & <- & X3). specialize (IH s1 s2 X1).
      destruct (run l name s1 es), (run l name s2 (filter (of_user name u) es)). cbn [snd] in *.
      now rewrite told_app, X3, IH.
    - destruct (step l name st e) as [s1 o1]. cbn [fst snd] in X. destruct X as (X1 & X2).
      specialize (IH s1 st' X1). destruct (run l name s1 es). cbn [snd] in *. now rewrite told_app, X2, IH. }
  now apply G.
Qed.

(* But if Redis does not answer, nobody is refused, however often they ask. *)
Theorem C98_no_limit_without_redis_refuted l name u t n : sane l -> burst l < Z.of_nat n ->
  let log := snd (run l name empty (repeat (Fails u t) n)) in
  let_in u t log = Z.of_nat n /\ ~ within l (let_in u t log) t t.
Proof.
  intros (R & P & B) H. cbn zeta.
  assert (E : forall st, let_in u t (snd (run l name st (repeat (Fails u t) n))) = Z.of_nat n).
  { clear H. intros st. induction n as [|n IH]; [reflexivity|]. cbn [repeat run step].
    destruct (run l name st (repeat (Fails u t) n)) as [s o]. cbn [snd] in *. cbn [app let_in].
    destruct (list_eq_dec N.eq_dec u u); [|contradiction]. destruct (Z.leb_spec t t); [|lia]. rewrite IH. lia. }
  split; [apply E|]. rewrite E. unfold within. nia.
Qed.

Lemma refused_is l name st u t r : sane l -> snd (step l name st (Asks u t)) = [(u, t, TooMany r)] ->
  fst (step l name st (Asks u t)) = st /\
  r = level l (st (redis_key name u)) t + period l - burst l * period l - t * rate l /\ 0 < r.
Proof.
  intros S. cbn [step]. rewrite allow_is by assumption.
  destruct (Z.leb_spec (level l (st (redis_key name u)) t + period l) (t * rate l + burst l * period l)) as [L|L]; [discriminate|].
  cbn [fst snd]. intros [= <-]. split; [reflexivity|]. split; [reflexivity|lia].
Qed.

(* How long to wait.  Whoever is refused and asks again after the time that the
   limiter gave is let in, if the bucket holds anything; *)
Theorem C98_let_in_after_the_wait l name st u t r t' : sane l -> 1 <= burst l ->
  snd (step l name st (Asks u t)) = [(u, t, TooMany r)] -> (t' - t) * rate l >= r ->
  snd (step l name (fst (step l name st (Asks u t))) (Asks u t')) = [(u, t', GoesOn)].
Proof.
  intros S B1 H Hr. pose proof S as (R & P & B). destruct (refused_is _ _ _ _ _ _ S H) as (-> & -> & L).
  cbn [step]. rewrite allow_is by assumption.
  assert (T : t <= t') by nia. rewrite (level_later l _ t t' R T).
  set (lv := level l (st (redis_key name u)) t) in *.
  destruct (Z.leb_spec (Z.max lv (t' * rate l) + period l) (t' * rate l + burst l * period l)) as [M|M]; [reflexivity|].
  exfalso. assert (period l <= burst l * period l) by nia. lia.
Qed.
(* but the client is told the whole seconds of it only: if there is a fraction,
   a client that does as told is refused again. *)
Theorem C98_told_too_short_refuted l name st u t r : sane l ->
  snd (step l name st (Asks u t)) = [(u, t, TooMany r)] -> 0 < r mod (rate l * second) ->
  exists r', snd (step l name (fst (step l name st (Asks u t))) (Asks u (t + header l r * second))) =
             [(u, t + header l r * second, TooMany r')].
Proof.
  intros S H Hr. pose proof S as (R & P & B). destruct (refused_is _ _ _ _ _ _ S H) as (-> & Er & L).
  cbn [step].
  assert (0 < second) by reflexivity. assert (Q : 0 < rate l * second) by nia.
  unfold header. pose proof (Z.div_mod r (rate l * second)) as D.
  assert (0 <= r / (rate l * second)) by (apply Z.div_pos; lia).
  set (q := r / (rate l * second)) in *. set (t' := t + q * second).
  assert (T : t <= t') by (unfold t'; nia). rewrite allow_is by assumption. rewrite (level_later l _ t t' R T).
  set (lv := level l (st (redis_key name u)) t) in *.
  assert (E : t' * rate l = t * rate l + rate l * second * q) by (unfold t'; ring).
  destruct (Z.leb_spec (Z.max lv (t' * rate l) + period l) (t' * rate l + burst l * period l)) as [M|M]; [|eexists; reflexivity].
  exfalso. lia.
Qed.

(* A case: two at once, then one each half a second.  The third is told to wait
   for 0 seconds, and is refused again. *)
Example C98_case :
  let l := Limit 2 2 second in
  let u := [1%N] in
  snd (run l [] empty [Asks u 0; Asks u 0; Asks [2%N] 0; Asks u 100000000; Asks u 100000000; Expires [] 5; Asks u 500000000]) =
    [(u, 0, GoesOn); (u, 0, GoesOn); ([2%N], 0, GoesOn); (u, 100000000, TooMany 800000000);
     (u, 100000000, TooMany 800000000); (u, 500000000, GoesOn)] /\
  sane l /\ header l 800000000 = 0 /\ 0 < 800000000 mod (rate l * second).
Proof. unfold sane. cbn. repeat split; reflexivity || lia. Qed.

Print Assumptions C98_let_in_exactly_within_the_limit_partial.
Print Assumptions C98_no_more_than_the_limit_partial.
Print Assumptions C98_other_users_do_not_matter.
Print Assumptions C98_no_limit_without_redis_refuted.
Print Assumptions C98_let_in_after_the_wait.
Print Assumptions C98_told_too_short_refuted.
