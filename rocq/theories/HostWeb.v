(* The host's service for clients (host/web): which close code a connection ends with,
   the relay between a websocket and the enclave, the deletion of a backup over HTTP,
   and the checks in front of both (host/service/service.go:98-105).

   The enclave, the client and the rate limiter are arbitrary: each answers as it likes,
   as a function of all that happened before.  Not modelled: deadlines (a read or write
   that times out is one that fails), logs, metrics, the text of errors. *)
From Verif Require Export HostAuth.

(* --- error codes (shared/proto/error.proto) ------------------------------------------ *)
Definition W_LeaderUnknown : N := 214.
Definition W_DB2_PinSize : N := 602.
Definition W_DB2_TriesTooHigh : N := 603.
Definition W_DB2_TriesZero : N := 604.
Definition W_DB2_DataSize : N := 605.
Definition W_Client_NS : N := 700.
Definition W_CopyDHState : N := 702.
Definition W_EncryptSerialize : N := 711.
Definition W_TransactionCancelled : N := 712.
Definition W_TransactionInvalid : N := 713.
Definition W_AlreadyClosed : N := 714.
(* close codes: websocket.go:97-101 and RFC 6455 *)
Definition WS_Normal : N := 1000.
Definition WS_BadArgs : N := 4003.
Definition WS_InternalError : N := 4013.
Definition WS_Unavailable : N := 4014.

(* how handling a connection ends (websocket.go:75-88) *)
Inductive wend :=
| WNil                 (* nil *)
| WEnclave (code : N)  (* an error that wraps an error of the enclave *)
| WHost                (* any other error *)
| WPeerClosed.         (* a websocket.CloseError: the client closed the connection *)

(* websocket.go:105-150 closeMessage *)
Definition one_of (code : N) (l : list N) : bool := existsb (N.eqb code) l.
Definition close_enclave (code : N) : N :=
  if one_of code [W_DB2_DataSize; W_DB2_PinSize; W_DB2_TriesTooHigh; W_DB2_TriesZero] then WS_BadArgs
  else if one_of code [W_EncryptSerialize; W_TransactionInvalid; W_CopyDHState; W_AlreadyClosed] then WS_InternalError
  else if one_of code [W_TransactionCancelled; W_LeaderUnknown] then WS_Unavailable
  else if ((W_Client_NS <? code) && (code <? W_Client_NS + 100))%bool then WS_BadArgs
  else WS_InternalError.
(* websocket.go:75-88: no close frame answers a client's own *)
Definition close_code (e : wend) : option N :=
  match e with
  | WNil => Some WS_Normal
  | WEnclave code => Some (close_enclave code)
  | WHost => Some WS_InternalError
  | WPeerClosed => None
  end.

(* --- what the service does ------------------------------------------------------------ *)
(* a request to the enclave (msgs.proto HostToEnclaveRequest) *)
Inductive hreq :=
| QNew (id : bytes)                  (* NewClientRequest, with the authenticated id *)
| QMsg (client : N) (data : bytes)   (* ExistingClientRequest *)
| QEnd (client : N)                  (* CloseClientRequest *)
| QDb (id request : bytes).          (* DatabaseRequest *)
(* what SendTransaction returns (host/dispatch/dispatcher.go:102-119) *)
Inductive hresp :=
| PNew (client : N) (start : bytes)
| PMsg (data : bytes) (fin : bool)
| PStatus (code : N)                 (* 0 is OK *)
| POther
| PFail.                             (* an error of the host *)
(* what the host reads from the client; a message over maxReadLimit (websocket.go:39,73)
   is a read that fails *)
Inductive wread := RMsg (data : bytes) | RClosed | RFail.
Definition max_read : N := 1024 * 128.
(* what can be seen of the service *)
Inductive act :=
| AAuth (user pass : bytes) (ok : bool)
| ALimit (user : bytes) (v : N)      (* 0 may go on, 1 exceeded, 2 cancelled, 3 some other error *)
| AStatus (code : N)                 (* an HTTP status is written *)
| AUpgrade (ok : bool)               (* the connection becomes a websocket *)
| AEnclave (q : hreq) (r : hresp)
| ARead (r : wread)
| ASend (data : bytes) (ok : bool)
| AClose (code : N).

Section Web.
Variable sees : list act -> bytes -> bytes -> bool.   (* the authenticator (auth.go:58-64) *)
Variable limiter : list act -> N.                     (* the rate limiter (rate.go:60-69) *)
Variable upgrade : list act -> bool.
Variable enclave : list act -> hreq -> hresp.
Variable can_send : list act -> bool.

(* websocket.go:179-219, the loop: messages are relayed one at a time.  [None]: the
   client has not sent the next one. *)
Fixpoint relay (client : N) (reads : list wread) (past : list act) : list act * option wend :=
  match reads with
  | [] => (past, None)
  | r :: reads' =>
      let r := match r with RMsg d => if max_read <? blen d then RFail else r | _ => r end in
      let past := past ++ [ARead r] in
      match r with
      | RFail => (past, Some WHost)
      | RClosed => (past, Some WPeerClosed)
      | RMsg d =>
          let p := enclave past (QMsg client d) in
          let past := past ++ [AEnclave (QMsg client d) p] in
          match p with
          | PFail => (past, Some WHost)
          | PStatus code => (past, Some (if code =? 0 then WHost else WEnclave code))   (* responseErr; then no ExistingClientReply *)
          | PNew _ _ | POther => (past, Some WHost)
          | PMsg d' fin =>
              let ok := match d' with [] => true | _ => can_send past end in
              let past := match d' with [] => past | _ => past ++ [ASend d' ok] end in
              if negb ok then (past, Some WHost)
              else if fin then (past, Some WNil)
              else relay client reads' past
          end
      end
  end.
(* websocket.go:152-178: a new client, closed when all is done (the deferred call) *)
Definition session (id : bytes) (reads : list wread) (past : list act) : list act * option wend :=
  let p := enclave past (QNew id) in
  let past := past ++ [AEnclave (QNew id) p] in
  match p with
  | PNew client start =>
      let ok := can_send past in
      let (past, e) := if ok then relay client reads (past ++ [ASend start true]) else (past ++ [ASend start false], Some WHost) in
      match e with
      | Some e => (past ++ [AEnclave (QEnd client) (enclave past (QEnd client))], Some e)
      | None => (past, None)
      end
  | _ => (past, Some WHost)
  end.
(* websocket.go:55-88 ServeHTTP *)
Definition websocket (user : bytes) (reads : list wread) (past : list act) : list act :=
  match hex_decode user with
  | None => past ++ [AStatus 400]
  | Some id =>
      if negb (blen id =? 16) then past ++ [AStatus 400]
      else if negb (upgrade past) then past ++ [AUpgrade false]
      else
        let (past, e) := session id reads (past ++ [AUpgrade true]) in
        match e with
        | Some e => match close_code e with Some code => past ++ [AClose code] | None => past end
        | None => past
        end
  end.
(* delete_backup.go:30-68 ServeHTTP; the request is client.proto's Request{delete:{}},
   marshalled: field 4, no bytes *)
Definition delete_request : bytes := [34; 0].
Definition delete_backup (is_delete : bool) (user : bytes) (past : list act) : list act :=
  if negb is_delete then past ++ [AStatus 405]
  else match hex_decode user with
  | None => past ++ [AStatus 400]
  | Some id =>
      if negb (blen id =? 16) then past ++ [AStatus 400]
      else
        let p := enclave past (QDb id delete_request) in
        past ++ [AEnclave (QDb id delete_request) p;
                 AStatus (match p with PFail => 500 | PStatus code => if code =? 0 then 200 else 500 | _ => 200 end)]
  end.
(* the middleware: auth.go:24-32 and rate.go:34-62 *)
Definition rate_limit (user : bytes) (inner : list act -> list act) (past : list act) : list act :=
  let v := limiter past in
  let past := past ++ [ALimit user v] in
  if v =? 1 then past ++ [AStatus 429] else if v =? 2 then past ++ [AStatus 499] else inner past.
Definition auth_check (user pass : bytes) (inner : list act -> list act) (past : list act) : list act :=
  let ok := sees past user pass in
  let past := past ++ [AAuth user pass ok] in
  if ok then inner past else past ++ [AStatus 401].
(* service.go:100-105: the two endpoints; user and pass are those of r.BasicAuth() *)
Inductive endpoint := EWebsocket (reads : list wread) | EDelete (is_delete : bool).
Definition serve_client (user pass : bytes) (e : endpoint) : list act :=
  auth_check user pass (rate_limit user (match e with EWebsocket reads => websocket user reads | EDelete d => delete_backup d user end)) [].
End Web.
