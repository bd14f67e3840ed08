(* Vocabulary for requests that go through the replicated log. *)
From Verif Require Export CoreTx RaftSpec HistSpec.

(* a replica that is loaded and has taken no request yet *)
Definition started sz hmac {D} (s : core D) : Prop :=
  exists n db part, reached sz hmac n /\ s = new_core D n db part.
Definition is_write (o : cop) : bool := match o with CWrite _ _ _ _ _ _ => true | _ => false end.
(* q is a request for x made in history h; requests are numbered 1, 2, ... *)
Definition written (h : list cop) (q : req) (x : inner) : Prop :=
  exists h1 ok rnd sent h2, h = h1 ++ CWrite (q_tx q) (q_by q) x ok rnd sent :: h2 /\ q_no q = count is_write h1 + 1.
(* everything said to the host, in order *)
Definition says (rs : list cres) : list (req * say) := flat_map r_said rs.
(* the answers to a request *)
Definition answers (no : N) (rs : list cres) : list say :=
  flat_map (fun a => if q_no (fst a) =? no then [snd a] else []) (says rs).
Definition waits {D} (s : core D) (no : N) : Prop :=
  (exists q, In q (c_fwd D s) /\ q_no q = no) \/ (exists w, In w (c_watch D s) /\ q_no (w_req w) = no).
Definition success (a : say) : Prop := match a with SError _ => False | _ => True end.
(* an error *)
Definition failure (a : say) : Prop := match a with SError _ => True | _ => False end.
(* a replica took x into its log at a location *)
Definition logged_at sz hmac (n : node) (x : inner) (l : loc) : Prop :=
  exists ok rnd n' a, rstep sz hmac n (ORequest ok rnd x) = Ret (n', a) /\ a_loc a = Some (l, RE_OK).
(* the request was placed at a location, by this replica or by an answer to it *)
Definition placed (rs : list cres) (no : N) (l : loc) : Prop := exists r, In r rs /\ r_placed r = Some (no, l).
Definition told (h : list cop) (no : N) : Prop := exists l, In (CAnswer no (FLocated l)) h.
(* entry e at index i is the one at location l, as far as l tells *)
Definition matches (i : N) (e : entry) (l : loc) : Prop :=
  lc_idx l = i /\ lc_term l = e_term e /\ (lc_hash l = [] \/ lc_hash l = e_hash e).
(* two different inputs of the keyed hash with the same result *)
Definition same_mac (hmac : bytes -> bytes -> bytes) (x y : bytes * bytes) : Prop :=
  x <> y /\ hmac (fst x) (snd x) = hmac (fst y) (snd y).
Definition opens (c : N) (o : cop) : bool := match o with COpen c' => c' =? c | _ => false end.
Definition removes (me : bytes) (r : cres) : bool :=
  match r_taken r with Some (_, Entry _ (IMember g) _) => negb (contains_me me g) | _ => false end.
