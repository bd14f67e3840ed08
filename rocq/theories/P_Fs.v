(* C103: a file is read whole or not at all; a temporary directory is one's own
   and is gone afterwards. *)
From Verif Require Import Base Fs.
Open Scope nat_scope.

Lemma used_In fds n : used fds n = true <-> In n fds.
Proof.
  unfold used. rewrite existsb_exists. split.
  - intros (x & I & E). apply Nat.eqb_eq in E. now subst.
  - intros I. exists n. split; [exact I|apply Nat.eqb_refl].
Qed.
Lemma lowest_spec fds : ~ In (lowest fds) fds /\ forall m, m < lowest fds -> In m fds.
Proof.
  unfold lowest. destruct (find _ _) as [n|] eqn:F.
  - split.
    + apply find_some in F as [_ F]. intros I. apply used_In in I. rewrite I in F. discriminate.
    + intros m H. assert (G : forall k s, find (fun n => negb (used fds n)) (seq s k) = Some n -> s <= m -> In m fds).
      { induction k as [|k IH]; intros s E L; [discriminate|]. cbn [seq find] in E.
        destruct (used fds s) eqn:U; cbn in E.
        - destruct (Nat.eq_dec s m) as [->|N]; [now apply used_In|]. apply (IH (S s) E). lia.
        - injection E as <-. lia. }
      apply (G _ _ F). lia.
  - exfalso. assert (I : incl (seq 0 (S (length fds))) fds).
    { intros x X. apply (find_none _ _ F) in X. apply used_In. now destruct (used fds x). }
    apply (NoDup_incl_length (seq_NoDup _ _)) in I. rewrite seq_length in I. lia.
Qed.

Lemma read_loop_spec rd : forall fuel i rest out, length rest <= fuel ->
  (forall r, read_loop rd fuel i rest out = Some r -> r = out ++ rest) /\
  ((forall j, rd j <> None) -> read_loop rd fuel i rest out = Some (out ++ rest)).
Proof.
  induction fuel as [|fuel IH]; intros i rest out L.
  - destruct rest; [|cbn in L; lia]. cbn. rewrite app_nil_r. destruct (rd i) eqn:R.
    + split; [intros r E; congruence|reflexivity].
    + split; intros; [discriminate|]. exfalso. exact (H i R).
  - cbn [read_loop]. destruct (rd i) as [n|] eqn:R.
    2: { split; intros; [discriminate|]. exfalso. exact (H i R). }
    destruct rest as [|b rest]; [rewrite app_nil_r; split; [intros r E; congruence|reflexivity]|].
    set (l := b :: rest) in *. assert (G : 1 <= given n l <= length l) by (unfold given, l; cbn [length]; lia).
    destruct (IH (S i) (skipn (given n l) l) (out ++ firstn (given n l) l)) as [A B].
    { rewrite skipn_length. lia. }
    rewrite <- app_assoc, firstn_skipn in A, B. split; assumption.
Qed.

(* However the reads come, what is read is the file, and without an error it is
   read; no descriptor stays in use.  Provided that standard input is open. *)
Theorem C103_read_whole_or_not_partial file rd fds :
  In 0 fds ->
  (forall r, fst (file_contents file rd fds) = Some r -> file = Some r) /\
  ((forall i, rd i <> None) -> fst (file_contents file rd fds) = file) /\
  snd (file_contents file rd fds) = fds.
Proof.
  intros Z. unfold file_contents. destruct file as [content|]; [|cbn; split; [discriminate|split; reflexivity]].
  destruct (lowest_spec fds) as [N L]. set (fd := lowest fds) in *.
  destruct (Nat.leb_spec fd 0) as [H|H]. { assert (fd = 0) by lia. congruence. }
  cbn [fst snd]. destruct (read_loop_spec rd (length content) 0 content [] (Nat.le_refl _)) as [A B].
  split; [intros r E; apply A in E; cbn in E; congruence|]. split; [exact B|].
  unfold closed. cbn [filter]. rewrite Nat.eqb_refl. cbn [negb].
  clear - N. clearbody fd. induction fds as [|x l IH]; [reflexivity|]. cbn [filter]. cbn [In] in N.
  destruct (Nat.eqb_spec fd x) as [E|]; [exfalso; apply N; left; congruence|]. cbn [negb]. f_equal. apply IH. tauto.
Qed.
(* With it closed the first file that is read fails, though it could be read,
   and a descriptor stays in use; the second works. *)
Theorem C103_without_stdin_refuted content rd fds :
  ~ In 0 fds -> (forall i, rd i <> None) ->
  file_contents (Some content) rd fds = (None, 0 :: fds) /\
  fst (file_contents (Some content) rd (0 :: fds)) = Some content.
Proof.
  intros Z R. assert (L : lowest fds = 0).
  { destruct (lowest_spec fds) as [N L]. destruct (lowest fds) as [|k] eqn:E; [reflexivity|]. exfalso. apply Z, L. lia. }
  split; [unfold file_contents; rewrite L; reflexivity|].
  unfold file_contents. destruct (lowest_spec (0 :: fds)) as [N _].
  destruct (Nat.leb_spec (lowest (0 :: fds)) 0) as [H|H]. { exfalso. apply N. left. lia. }
  cbn [fst]. destruct (read_loop_spec rd (length content) 0 content [] (Nat.le_refl _)) as [_ B]. exact (B R).
Qed.
Example C103_read_meets : let f := map N.of_nat (seq 0 200) in
  file_contents (Some f) (fun i => Some (7 + i)) [2; 0; 1] = (Some f, [2; 0; 1]) /\
  file_contents (Some f) (fun i => if Nat.eqb i 3 then None else Some 9) [2; 0; 1] = (None, [2; 0; 1]).
Proof. vm_compute. split; reflexivity. Qed.

(* Trees.  What there is in one, with its kind: true for links and such. *)
Fixpoint all_plain (t : node) : Prop :=
  match t with
  | File => True | Other => False
  | Dir es => (fix go es := match es with [] => True | (_, s) :: r => all_plain s /\ go r end) es
  end.
(* The paths of the things that are neither file nor directory; of the files. *)
Fixpoint others (t : node) : list (list bytes) :=
  match t with
  | File => [] | Other => [[]]
  | Dir es => (fix go es := match es with [] => [] | (n, s) :: r => map (cons n) (others s) ++ go r end) es
  end.
Fixpoint files (t : node) : list (list bytes) :=
  match t with
  | File => [[]] | Other => []
  | Dir es => (fix go es := match es with [] => [] | (n, s) :: r => map (cons n) (files s) ++ go r end) es
  end.
Lemma node_ind' (P : node -> Prop) : P File -> P Other -> (forall es, Forall (fun e => P (snd e)) es -> P (Dir es)) -> forall t, P t.
Proof.
  intros F O D. fix IH 1. intros [|es|]; [exact F| |exact O]. apply D.
  induction es as [|[n s] r IHr]; constructor; [apply IH|exact IHr].
Qed.
Definition leftover (es : list (bytes * node)) : list (bytes * node) :=
  flat_map (fun e => match rm (snd e) with None => [] | Some s => [(fst e, s)] end) es.
Lemma rm_dir es : rm (Dir es) = match leftover es with [] => None | l => Some (Dir l) end.
Proof.
  cbn [rm]. match goal with |- match ?g es with _ => _ end = _ => assert (E : g es = leftover es) end.
  { induction es as [|[n s] r IH]; [reflexivity|]. cbn [leftover flat_map fst snd]. destruct (rm s); cbn [app]; rewrite IH; reflexivity. }
  rewrite E. destruct (leftover es); reflexivity.
Qed.
Lemma others_dir es : others (Dir es) = flat_map (fun e => map (cons (fst e)) (others (snd e))) es.
Proof. induction es as [|[n s] r IH]; [reflexivity|]. cbn [flat_map fst snd]. rewrite <- IH. reflexivity. Qed.
Lemma files_dir es : files (Dir es) = flat_map (fun e => map (cons (fst e)) (files (snd e))) es.
Proof. induction es as [|[n s] r IH]; [reflexivity|]. cbn [flat_map fst snd]. rewrite <- IH. reflexivity. Qed.
Lemma rm_spec t :
  match rm t with
  | None => others t = []
  | Some t' => others t' = others t /\ others t <> [] /\ files t' = []
  end.
Proof.
  induction t as [| |es H] using node_ind'; cbn [rm]; [reflexivity|split; [reflexivity|split; [discriminate|reflexivity]]|].
  rewrite <- rm_dir || idtac. change (match rm (Dir es) with None => others (Dir es) = [] | Some t' => others t' = others (Dir es) /\ others (Dir es) <> [] /\ files t' = [] end).
  rewrite rm_dir, others_dir.
  assert (G : flat_map (fun e => map (cons (fst e)) (others (snd e))) (leftover es) = flat_map (fun e => map (cons (fst e)) (others (snd e))) es /\
              flat_map (fun e => map (cons (fst e)) (files (snd e))) (leftover es) = [] /\
              (leftover es <> [] -> flat_map (fun e => map (cons (fst e)) (others (snd e))) es <> [])).
  { induction H as [|[n s] r Hs Hr IH]; [split; [reflexivity|split; [reflexivity|tauto]]|].
    destruct IH as (A & B & C). unfold leftover in *. cbn [flat_map fst snd] in *. destruct (rm s) as [s'|].
    - destruct Hs as (O & N & F). cbn [app flat_map fst snd]. rewrite O, F, A, B. split; [reflexivity|]. split; [reflexivity|].
      intros _ E. apply app_eq_nil in E as [E _]. apply map_eq_nil in E. contradiction.
    - rewrite Hs. cbn [map app]. split; [exact A|]. split; [exact B|exact C]. }
  destruct G as (A & B & C). destruct (leftover es) as [|x l] eqn:E.
  - rewrite <- A. reflexivity.
  - split; [rewrite others_dir; exact A|]. split; [apply C; discriminate|]. rewrite files_dir. exact B.
Qed.
Lemma plain_others t : all_plain t <-> others t = [].
Proof.
  induction t as [| |es H] using node_ind'; [cbn; tauto|cbn; split; [tauto|discriminate]|].
  rewrite others_dir. induction H as [|[n s] r Hs Hr IH]; [cbn; tauto|].
  change (all_plain (Dir ((n, s) :: r))) with (all_plain s /\ all_plain (Dir r)). rewrite IH. cbn [flat_map fst snd] in *.
  rewrite Hs. split.
  - intros [-> ->]. reflexivity.
  - intros E. apply app_eq_nil in E as [E1 E2]. apply map_eq_nil in E1. auto.
Qed.

(* A directory is the object's alone: it was not there before; nothing else is
   touched by it.  It is taken once. *)
Theorem C103_directory_is_its_own name drawn fs name' fs' :
  init name drawn fs = (name', fs', true) ->
  name = [] /\ name' = drawn /\ (forall t, ~ In (drawn, t) fs) /\ fs' = (drawn, Dir []) :: fs.
Proof.
  unfold init. destruct name; [|discriminate]. destruct (has fs drawn) eqn:H; [discriminate|]. intros E. injection E as <- <-.
  split; [reflexivity|]. split; [reflexivity|]. split; [|reflexivity]. intros t I.
  enough (has fs drawn = true) by congruence. unfold has. apply existsb_exists. exists (drawn, t). split; [exact I|].
  cbn [fst]. destruct (list_eq_dec N.eq_dec drawn drawn); [reflexivity|contradiction].
Qed.
(* When the object goes, its directory goes, whatever files and directories are
   in it, and nothing else; *)
Theorem C103_directory_is_gone_partial name t before after :
  name <> [] -> (forall s, ~ In (name, s) before) -> (forall s, ~ In (name, s) after) ->
  (destroy name (before ++ (name, t) :: after) = before ++ after <-> all_plain t).
Proof.
  intros N B A. unfold destroy. destruct name as [|x name]; [contradiction|]. set (nm := x :: name) in *.
  assert (K : forall l, (forall s, ~ In (nm, s) l) -> flat_map (fun e => if list_eq_dec N.eq_dec (fst e) nm
     then match rm (snd e) with None => [] | Some t => [(fst e, t)] end else [e]) l = l).
  { induction l as [|[m s] l IH]; intros H; [reflexivity|]. cbn [flat_map fst snd].
    destruct (list_eq_dec N.eq_dec m nm) as [->|]; [exfalso; apply (H s); left; reflexivity|].
    rewrite IH; [reflexivity|]. intros s' I. apply (H s'). right. exact I. }
  rewrite flat_map_app. cbn [flat_map fst snd]. rewrite (K before B), (K after A).
  destruct (list_eq_dec N.eq_dec nm nm) as [_|]; [|contradiction].
  pose proof (rm_spec t) as R. rewrite plain_others. destruct (rm t) as [t'|].
  - destruct R as (_ & R & _). split; [|contradiction]. intros E. apply app_inv_head in E.
    apply (f_equal (@length _)) in E. cbn in E. lia.
  - cbn [app]. split; [intros _; exact R|reflexivity].
Qed.
(* but a link in it, or a pipe, stays, and with it the directory. *)
Theorem C103_links_stay_refuted t : others t <> [] ->
  exists t', rm t = Some t' /\ others t' = others t /\ files t' = [].
Proof.
  intros H. pose proof (rm_spec t) as R. destruct (rm t) as [t'|]; [|contradiction]. exists t'. tauto.
Qed.
Open Scope N_scope.
Example C103_dir_meets :
  destroy [5] [([4], File); ([5], Dir [([1], File); ([2], Dir [([3], File)])]); ([6], Other)] = [([4], File); ([6], Other)] /\
  destroy [5] [([5], Dir [([1], File); ([2], Dir [([3], Other)])])] = [([5], Dir [([2], Dir [([3], Other)])])] /\
  init [] [5] [([4], File)] = ([5], [([5], Dir []); ([4], File)], true) /\ init [] [4] [([4], File)] = ([], [([4], File)], false).
Proof. vm_compute. tauto. Qed.

Print Assumptions C103_read_whole_or_not_partial.
Print Assumptions C103_without_stdin_refuted.
Print Assumptions C103_directory_is_its_own.
Print Assumptions C103_directory_is_gone_partial.
Print Assumptions C103_links_stay_refuted.
