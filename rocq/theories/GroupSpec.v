(* Vocabulary for statements about a group of whole replicas. *)
From Verif Require Import CoreTxSpec Group Membership MembershipSpec RaftNetSpec RaftMoveSpec.

(* One machine with one database that runs the entries of a log in order: its last
   state, and the effect of each entry. *)
Section One.
Context {D E : Type}.
Variable apply : D -> bytes -> D * option E.
Definition run_one (db : D) (e : entry) : D * option E :=
  match e_inner e with IData d => apply db d | _ => (db, None) end.
Fixpoint run_all (db : D) (es : list entry) : D * list (option E) :=
  match es with
  | [] => (db, [])
  | e :: es' => let (db1, eff) := run_one db e in let (db2, r) := run_all db1 es' in (db2, eff :: r)
  end.
End One.

(* the state (s, A) was a state of replica k *)
Definition gwas {D E} (g : group D E) (k : bytes) (s : core D) (A : list entry) : Prop := In (k, (s, A)) (g_past D E g).
(* no two logs that ever existed show a hash collision *)
Definition gno_clash {D E} (g : group D E) : Prop :=
  forall k1 s1 A1 k2 s2 A2, gwas g k1 s1 A1 -> gwas g k2 s2 A2 -> ~ clash A1 A2.
(* somebody asks for a change of the membership, to gr *)
Definition asks_change (ev : gevent) (gr : rgroup) : Prop :=
  (exists k attested ok rnd, ev = GChange k attested ok rnd gr) \/ (exists k tx by_ ok rnd b, ev = GCall k (CWrite tx by_ (IMember gr) ok rnd b)).
(* from membership M on: there is a set of memberships, any two quorums of any two of
   which have more than sm replicas in common, and nobody asks for one outside it *)
Definition gchanges_overlap (M : members) (sm : N) (evs : list gevent) : Prop :=
  exists F : members -> Prop, F M /\ overlapping sm F /\
    forall ev gr m, In ev evs -> asks_change ev gr -> from_proto gr = (m, M_OK) -> F m.
(* somebody asks for a change of the membership, to m *)
Definition asked_for (evs : list gevent) (m : members) : Prop :=
  exists ev gr, In ev evs /\ asks_change ev gr /\ from_proto gr = (m, M_OK).
(* nobody asks for a change of the membership *)
Definition gfixed (evs : list gevent) : Prop := forall ev gr, In ev evs -> ~ asks_change ev gr.
(* what was seen at a replica *)
Definition saw {D E} (g : group D E) (k : bytes) (x : seen E) : Prop := In (k, x) (g_seen D E g).

(* g is a state of the group after some events; the log L0 had led to the database db0 *)
Definition group_reached sz hmac {D E} (apply : D -> bytes -> D * option E) respond min_voting M sm L0 db0 evs (g : group D E) : Prop :=
  exists gid xs g0, may_start hmac M sm L0 xs /\ gstart sz hmac D E gid M sm L0 db0 xs = Ret g0 /\
    g = grun sz hmac D E apply respond min_voting g0 evs.
(* the answer a fits the effect eff that the request q had *)
Definition fits_effect {E} (respond : N -> E -> option bytes) (q : req) (a : say) (eff : option E) : Prop :=
  match q_by q with
  | AHost => a = SDone
  | AClient c => exists ef b, eff = Some ef /\ respond c ef = Some b /\ a = SData b
  end.
(* entry e stands at place p of the log es that one machine runs from db0, and has the effect eff there *)
Definition runs_at {D E} (apply : D -> bytes -> D * option E) (db0 : D) (es : list entry) (p : nat) (e : entry) (eff : option E) : Prop :=
  nth_error es p = Some e /\ nth_error (snd (run_all apply db0 es)) p = Some eff.
