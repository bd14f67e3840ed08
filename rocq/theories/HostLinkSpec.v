(* Vocabulary for the transport of peer messages between hosts. *)
From Verif Require Export HostLink HistSpec.

(* the messages written to a connection for the first time, and the messages handed to
   the receiving enclave, in order *)
Definition sent (rs : list lres) : list pmsg := flat_map (fun r => match r_sent r with Some m => [m] | None => [] end) rs.
Definition got (rs : list lres) : list pmsg := flat_map (fun r => match r_got r with Some m => [m] | None => [] end) rs.
(* the messages that PeerClient.Send took *)
Fixpoint accepted (h : list lop) (rs : list lres) : list pmsg :=
  match h, rs with
  | LQueue m :: h', r :: rs' => (if r_accepted r then [m] else []) ++ accepted h' rs'
  | _ :: h', _ :: rs' => accepted h' rs'
  | _, _ => []
  end.
(* some elements of a list, in order, each at most once *)
Inductive subseq {A} : list A -> list A -> Prop :=
| sub_nil : subseq [] []
| sub_skip x a b : subseq a b -> subseq a (x :: b)
| sub_take x a b : subseq a b -> subseq (x :: a) (x :: b).

(* What was delivered of what was sent is a prefix of each session: once a message is
   missing, none is delivered until a new session begins.  The flag: the last one sent
   was delivered. *)
Inductive sessions : list pmsg -> list pmsg -> bool -> Prop :=
| ses_none : sessions [] [] true
| ses_next s d m : sessions s d true -> sessions (s ++ [m]) (d ++ [m]) true
| ses_begin s d b m : sessions s d b -> establishing m = true -> sessions (s ++ [m]) (d ++ [m]) true
| ses_lost s d b m : sessions s d b -> sessions (s ++ [m]) d false.

(* --- conditions on histories ------------------------------------------------- *)
Definition short (h : list lop) : Prop := N.of_nat (length h) < 2 ^ 31.
Definition is_abandon (o : lop) : bool := match o with LAbandon => true | _ => false end.
Definition enclave_fails (o : lop) : bool := match o with LDeliver false => true | _ => false end.
Definition replaces (o : lop) : bool :=
  match o with LQueue m => (establishing m || resets m)%bool | LAbandon => true | _ => false end.
(* every unacknowledged message that begins a session has reached the receiver *)
Definition settled (l : link) : Prop :=
  forall s m, In (s, m) (h_pending l) -> establishing m = true -> (cmp s (h_seen l) <= 0)%Z.
(* connections are made again only in such states *)
Definition orderly buffer (h : list lop) : Prop :=
  forall h1 h2 l rs, h = h1 ++ LConnect :: h2 -> exec (lstep buffer) no_link h1 = Ret (l, rs) -> settled l.
(* unacknowledged and not received *)
Definition missing (l : link) : list pmsg :=
  map snd (filter (fun x => (0 <? cmp (fst x) (h_seen l))%Z) (h_pending l)).
