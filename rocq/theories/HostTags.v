(* What the host counts for an HTTP request: host/util/user_agent.go,
   host/web/middleware/metrics.go and auth.go.
   Simplified: strings are lists of runes (UTF-8 has been decoded, as regexp and
   strings.ToLower do; a byte that is not UTF-8 is the rune 65533); the parts of
   a user agent that no label shows (specifiers) are not kept. *)
From Verif Require Import Base.
From Coq Require Import String Ascii.
Open Scope string_scope.
Open Scope list_scope.
Open Scope N_scope.

Definition rune := N.
Fixpoint runes (s : string) : list rune :=
  match s with EmptyString => [] | String a r => N_of_ascii a :: runes r end.
Definition runes_eqb (a b : list rune) : bool := if list_eq_dec N.eq_dec a b then true else false.

(* Go's (?i): a letter of the pattern matches what folds to it: the two cases,
   for s also U+017F, for k also U+212A (regexp/syntax, unicode.SimpleFold).
   The pattern's letter is given in lower case. *)
Definition folds (p r : rune) : bool :=
  (r =? p) || ((97 <=? p) && (p <=? 122) && (r + 32 =? p)) ||
  ((p =? 115) && (r =? 383)) || ((p =? 107) && (r =? 8490)).
(* A literal of the pattern at the beginning: what it matched and the rest. *)
Fixpoint literal (p s : list rune) : option (list rune * list rune) :=
  match p, s with
  | [], _ => Some ([], s)
  | a :: p', b :: s' =>
      if folds a b then match literal p' s' with Some (m, r) => Some (b :: m, r) | None => None end else None
  | _, [] => None
  end.
(* [^ ]+ takes all up to the first space, for what follows begins with one or
   is the end. *)
Fixpoint until_space (s : list rune) : list rune * list rune :=
  match s with
  | [] => ([], [])
  | c :: r => if c =? 32 then ([], s) else let '(v, t) := until_space r in (c :: v, t)
  end.
(* ( (?P<Specifiers>.+))?$ : the end, or a space and something without newlines. *)
Definition ends_well (s : list rune) : bool :=
  match s with
  | [] => true
  | _ :: [] => false
  | _ :: r => forallb (fun c => negb (c =? 10)) r
  end.

(* user_agent.go:23: ^Signal-(Android|Desktop|iOS)/([^ ]+)( (.+))?$ ; platform and version. *)
Definition alternatives : list (list rune) := [runes "android"; runes "desktop"; runes "ios"].
Definition match_after (p s : list rune) : option (list rune * list rune) :=
  match literal p s with
  | Some (m, 47 :: r) =>
      let '(v, t) := until_space r in
      match v with [] => None | _ => if ends_well t then Some (m, v) else None end
  | _ => None
  end.
Fixpoint first_match (ps : list (list rune)) (s : list rune) : option (list rune * list rune) :=
  match ps with
  | [] => None
  | p :: r => match match_after p s with Some x => Some x | None => first_match r s end
  end.
Definition ua_match (s : list rune) : option (list rune * list rune) :=
  match literal (runes "signal-") s with
  | Some (_, r) => first_match alternatives r
  | None => None
  end.

(* unicode.ToLower, on the runes that can be in a platform: U+017F is a lower
   case letter, U+212A is the upper case of k. *)
Definition to_lower (r : rune) : rune :=
  if (65 <=? r) && (r <=? 90) then r + 32 else if r =? 8490 then 107 else r.
(* user_agent.go:75-86 *)
Definition parse_platform (m : list rune) : list rune :=
  let l := map to_lower m in
  if runes_eqb l (runes "desktop") then runes "desktop" else
  if runes_eqb l (runes "ios") then runes "ios" else
  if runes_eqb l (runes "android") then runes "android" else
  runes "unexpected-parse-failure".
(* user_agent.go:61-73 *)
Definition parse_user_agent (s : list rune) : option (list rune * list rune) :=
  match ua_match s with Some (m, v) => Some (parse_platform m, v) | None => None end.

(* The labels of a counter; numbers are kept as such. *)
Inductive label := LText (name : string) (v : list rune) | LNum (name : string) (v : N).
(* user_agent.go:34-59, without allowed versions, as all callers call it. *)
Definition parse_tags (s : list rune) : list label :=
  match parse_user_agent s with
  | None => [LText "platform" (runes "unknown")]
  | Some (p, _) => [LText "platform" p]
  end.

(* What a handler does with its ResponseWriter, in order. *)
Inductive wact := WWrite | WHeader (status : N) | WHijack.
(* metrics.go:43-88 writerWrapper: (recorded, statusCode). *)
Definition wstep (w : bool * N) (a : wact) : bool * N :=
  match a with
  | WWrite => if fst w then w else (true, 200)
  | WHeader s => (true, s)
  | WHijack => if fst w then w else (true, 101)
  end.
Definition wrapped (acts : list wact) : bool * N := fold_left wstep acts (false, 0).

Record hreq := HReq { h_method : list rune; h_path : list rune; h_agent : list rune; h_cred : bytes * bytes }.
(* auth.go:24-32; [check] is the authenticator, [inner] what the handlers behind
   do (rate limit, websocket, delete). *)
Definition auth_acts (check : bytes * bytes -> bool) (inner : hreq -> list wact) (r : hreq) : list wact :=
  if check (h_cred r) then inner r else [WHeader 401].
(* metrics.go:26-40 Instrument: the labels of the counter that is raised. *)
Definition instrument (handler : hreq -> list wact) (r : hreq) : option (list label) :=
  let w := wrapped (handler r) in
  if fst w then
    Some (parse_tags (h_agent r) ++
          [LText "method" (h_method r); LText "endpoint" (h_path r); LNum "status" (snd w)])
  else None.
(* service.go:98-106: the mux calls the handler only for its own path. *)
Definition serve_path (path : list rune) (check : bytes * bytes -> bool) (inner : hreq -> list wact) (r : hreq)
  : option (list label) :=
  if runes_eqb (h_path r) path then instrument (auth_acts check inner) r else None.

(* net/http: a method is a token, of at least one of these characters. *)
Definition token_rune (r : rune) : bool :=
  ((48 <=? r) && (r <=? 57)) || ((65 <=? r) && (r <=? 90)) || ((97 <=? r) && (r <=? 122)) ||
  existsb (N.eqb r) (runes "!#$%&'*+-.^_`|~").
Definition valid_method (m : list rune) : bool :=
  match m with [] => false | _ => forallb token_rune m end.
