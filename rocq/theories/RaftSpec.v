(* Vocabulary for statements about replicated logs. *)
From Verif Require Import RaftLog Raft Hist MembershipSpec.

(* A full log: entry number i (from 1) is at position i-1.  Each entry carries
   the keyed hash of its index, term and contents under the previous entry's
   hash (32 zero bytes before the first). *)
Fixpoint chained_from (hmac : bytes -> bytes -> bytes) (i : N) (prev : bytes) (A : list entry) : Prop :=
  match A with
  | [] => True
  | e :: A' => e_hash e = hmac prev (tagged (e_inner e) i (e_term e)) /\ length (e_hash e) = 32%nat /\
               e_term e <> 0 /\ chained_from hmac (i + 1) (e_hash e) A'
  end.
Definition chained hmac (A : list entry) : Prop := chained_from hmac 1 (zeros 32) A.

(* the hash a position builds on *)
Definition prev_hash (A : list entry) (j : nat) : bytes :=
  match j with O => zeros 32 | S j' => match nth_error A j' with Some e => e_hash e | None => [] end end.
(* Two logs that show a collision of the hash: at some position the same hash
   value although what was hashed differs. *)
Definition clash (A B : list entry) : Prop :=
  exists j a b, nth_error A j = Some a /\ nth_error B j = Some b /\ e_hash a = e_hash b /\
    (prev_hash A j <> prev_hash B j \/ e_term a <> e_term b \/ e_inner a <> e_inner b).

Definition prefix {A} (a b : list A) : Prop := exists c, b = a ++ c.

(* "log length" as an index *)
Definition llen {A} (a : list A) : N := N.of_nat (length a).
(* the entries numbered 1..i *)
Definition upto {A} (i : N) (a : list A) : list A := firstn (N.to_nat i) a.
(* entry number i *)
Definition nth_entry {A} (a : list A) (i : N) : option A :=
  if i =? 0 then None else nth_error a (N.to_nat (i - 1)).

(* a log that ends at index lidx with term lterm is at least as up to date as l *)
Definition up_to_date (l : rlog) (lidx lterm : N) : Prop :=
  last_term l < lterm \/ (lterm = last_term l /\ last_idx l <= lidx).

(* --- one replica ------------------------------------------------------------ *)
(* l holds the full log A, of which the oldest entries may be gone *)
Definition holds (l : rlog) (A : list entry) : Prop :=
  exists d, l_entries l = skipn d A /\ l_oldest l = 1 + N.of_nat d /\ (d = 0%nat \/ (d < length A)%nat).
(* The full log of a replica: what it still stores, on top of what it stored
   before. *)
Definition regrow (A : list entry) (l : rlog) : list entry :=
  firstn (N.to_nat (l_oldest l - 1)) A ++ l_entries l.
(* A replica as the code constructs one: over any hash-chained log.  It may have
   lost its front only when its contents count as committed (joining a group). *)
Definition born sz hmac (n : node) (A : list entry) : Prop :=
  exists group me mem log cfg committed sm ok rnd A0,
    wf_members mem /\ chained hmac A0 /\ holds log A0 /\ (committed = true \/ l_oldest log = 1) /\
    new_node sz hmac group me mem log cfg committed sm ok rnd = Ret n /\ A = regrow A0 (n_log n).
(* n was reached from a new replica by some calls *)
Definition reached sz hmac (n : node) : Prop :=
  exists n0 A0 ops rs, born sz hmac n0 A0 /\ exec (rstep sz hmac) n0 ops = Ret (n, rs).
(* ... and A is its full log *)
Fixpoint full_log sz hmac (n : node) (A : list entry) (ops : list rop) : list entry :=
  match ops with
  | [] => A
  | o :: ops' =>
      match rstep sz hmac n o with
      | Ret (n', _) => full_log sz hmac n' (regrow A (n_log n')) ops'
      | Crash => A
      end
  end.
Definition reached_with sz hmac (n : node) (A : list entry) : Prop :=
  exists n0 A0 ops rs, born sz hmac n0 A0 /\ exec (rstep sz hmac) n0 ops = Ret (n, rs) /\ A = full_log sz hmac n0 A0 ops.

(* what a run of calls handed to the application, in order *)
Definition delivered (rs : list ranswer) : list (N * entry) :=
  flat_map (fun a => match a_taken a with Some x => [x] | None => [] end) rs.
(* entries with consecutive indexes *)
Fixpoint numbered (i : N) (es : list entry) : list (N * entry) :=
  match es with [] => [] | e :: es' => (i, e) :: numbered (i + 1) es' end.
(* the votes (term, candidate) that the messages of a run give away: those it
   grants, and one for itself whenever it asks for votes *)
Definition ballot (me : bytes) (m : option bytes * rmsg) : list (N * bytes) :=
  match m_body (snd m), fst m with
  | VoteResp true, Some to => [(m_term (snd m), to)]
  | VoteReq _ _ _, _ => [(m_term (snd m), me)]
  | _, _ => []
  end.
Definition ballots (me : bytes) (rs : list ranswer) : list (N * bytes) :=
  flat_map (fun a => flat_map (ballot me) (a_sent a)) rs.

(* what a protobuf message can carry *)
Definition entry_typed (e : entry) : Prop :=
  e_term e < 2 ^ 64 /\
  match e_inner e with IMember g => Forall (fun r => blen (rp_id r) < 2 ^ 32) g | _ => True end.
(* Two logs that contain two different inputs of the keyed hash with the same
   result, at the same position. *)
Definition collision (hmac : bytes -> bytes -> bytes) (A B : list entry) : Prop :=
  exists j a b, nth_error A j = Some a /\ nth_error B j = Some b /\
    let x := tagged (e_inner a) (N.of_nat j + 1) (e_term a) in
    let y := tagged (e_inner b) (N.of_nat j + 1) (e_term b) in
    (prev_hash A j, x) <> (prev_hash B j, y) /\ hmac (prev_hash A j) x = hmac (prev_hash B j) y.
(* a request names an entry by its index and term *)
Definition names_entry (m : rmsg) (i t : N) : Prop :=
  match m_body m with
  | VoteReq lidx lterm _ => i = lidx /\ t = lterm
  | AppReq prev pterm _ es _ _ =>
      (i = prev /\ t = pterm) \/ (exists j x, nth_error es j = Some x /\ i = prev + 1 + N.of_nat j /\ t = e_term x)
  | _ => False
  end.
