(* C77: what the host does for a client: the enclave is asked for nobody but the user
   whose credentials were checked, messages are relayed as they are and in turn, and the
   enclave is told once that a client has gone. *)
From Verif Require Import HostWeb HostWebSpec HostWebProofs HostAuth HostAuthSpec.

Section P.
(* any authenticator, rate limiter, enclave and client *)
Variable sees : list act -> bytes -> bytes -> bool.
Variable limiter : list act -> N.
Variable upgrade : list act -> bool.
Variable enclave : list act -> hreq -> hresp.
Variable can_send : list act -> bool.
Notation serve_client := (serve_client sees limiter upgrade enclave can_send).

(* wrong credentials: 401, and that is all *)
Theorem C77_wrong_credentials user pass ep : sees [] user pass = false -> serve_client user pass ep = [AAuth user pass false; AStatus 401].
Proof.
  intros H. destruct (serve_shape sees limiter upgrade enclave can_send user pass ep) as [(_ & E)|[(X & _)|[(X & _)|(X & _)]]]; [exact E|congruence..].
Qed.
(* over the limit: 429, and that is all *)
Theorem C77_over_the_limit user pass ep : sees [] user pass = true -> limiter [AAuth user pass true] = 1 ->
  serve_client user pass ep = [AAuth user pass true; ALimit user 1; AStatus 429].
Proof.
  intros H H1. destruct (serve_shape sees limiter upgrade enclave can_send user pass ep) as [(X & _)|[(_ & _ & E)|[(_ & X & _)|(_ & v & X & _ & Y & _)]]]; [congruence|exact E|congruence..].
Qed.
(* The enclave is asked only after the credentials were found good, and only for the id
   that the user's name spells; messages and the end of a client go to the client that
   the enclave made for that id on this connection, after it was made. *)
Theorem C77_only_for_the_checked_user user pass ep q r : In (AEnclave q r) (serve_client user pass ep) ->
  sees [] user pass = true /\ limiter [AAuth user pass true] <> 1 /\
  match q with
  | QNew id | QDb id _ => names user id
  | QMsg c _ | QEnd c => exists id s a b, names user id /\
      serve_client user pass ep = a ++ AEnclave (QNew id) (PNew c s) :: b /\ In (AEnclave q r) b
  end.
Proof. apply only_for. Qed.
(* The enclave gets what the client sent, in that order and unaltered, no message over
   128 KiB; the client gets the handshake and the enclave's replies, in that order. *)
Theorem C77_relayed_in_order user pass ep : let tr := serve_client user pass ep in
  passed tr = got tr /\ sent tr = due tr /\ Forall (fun d => blen d <= 131072) (passed tr) /\
  (forall reads, ep = EWebsocket reads -> exists n, map RMsg (got tr) = firstn n reads).
Proof. apply in_order. Qed.
(* The next message is taken only when the former was passed on and its reply sent. *)
Theorem C77_one_at_a_time user pass ep a d b : serve_client user pass ep = a ++ ARead (RMsg d) :: b -> passed a = got a /\ sent a = due a.
Proof. apply one_by_one. Qed.
(* When a connection ends, however it does, the enclave is told once, and after that only
   the close frame is sent; if it has not ended, all that the client sent was taken. *)
Theorem C77_client_closed_once user pass reads id c s : let tr := serve_client user pass (EWebsocket reads) in
  In (AEnclave (QNew id) (PNew c s)) tr ->
  (ends tr = [c] /\ exists a r b, tr = a ++ AEnclave (QEnd c) r :: b /\ (b = [] \/ exists code, b = [AClose code])) \/
  (ends tr = [] /\ closes tr = [] /\ map RMsg (got tr) = reads).
Proof. apply closed_once. Qed.
(* 4014 tells of an error "cancelled" or "leader unknown" in reply to the last message *)
Theorem C77_closed_unavailable user pass ep : In (AClose 4014) (serve_client user pass ep) ->
  exists a c d code r, serve_client user pass ep = a ++ [AEnclave (QMsg c d) (PStatus code); AEnclave (QEnd c) r; AClose 4014] /\
    (code = 712 \/ code = 214).
Proof. apply closed_unavailable. Qed.
(* 1000 tells that the enclave had finished, with no message after *)
Theorem C77_closed_normal user pass ep : In (AClose 1000) (serve_client user pass ep) ->
  exists a c d d' b, serve_client user pass ep = a ++ AEnclave (QMsg c d) (PMsg d' true) :: b /\ passed b = [] /\ got b = [].
Proof. apply closed_normal. Qed.
(* an error of the enclave in reply to a message ends the connection, with 4003, 4013 or 4014 *)
Theorem C77_error_closes user pass ep c d code : In (AEnclave (QMsg c d) (PStatus code)) (serve_client user pass ep) -> code <> 0 ->
  exists a r x, serve_client user pass ep = a ++ [AEnclave (QMsg c d) (PStatus code); AEnclave (QEnd c) r; AClose x] /\
    close_code (WEnclave code) = Some x /\ (x = 4003 \/ x = 4013 \/ x = 4014).
Proof.
  intros H H0. destruct (error_closes _ _ _ _ _ _ _ _ _ _ _ H H0) as (a & r & E). exists a, r, (close_enclave code).
  split; [exact E|]. split; [reflexivity|]. exact (close_enclave_range code).
Qed.
End P.
(* With the authenticator of host/auth (C51 says what [check] accepts). *)
Theorem C77_credentials : forall hmac expiration now limiter upgrade enclave can_send user pass ep q r,
  In (AEnclave q r) (serve_client (fun _ => check hmac expiration now) limiter upgrade enclave can_send user pass ep) ->
  check hmac expiration now user pass = true.
Proof. intros hmac e now l u en cs user pass ep q r H. exact (proj1 (only_for _ _ _ _ _ _ _ _ _ _ H)). Qed.

(* --- a concrete connection --------------------------------------------------------- *)
Definition x_user77 : bytes := concat (repeat [48; 97] 16).   (* "0a0a..." *)
Definition x_id77 : bytes := repeat 10 16.
Definition x_sees (_ : list act) (u p : bytes) : bool := beq p [1; 2].
(* the enclave makes client 7; it answers [1] with [9], [2] with nothing, [3] with "cancelled", all else with "fin" *)
Definition x_enclave (_ : list act) (q : hreq) : hresp :=
  match q with
  | QNew _ => PNew 7 [5]
  | QMsg _ [1] => PMsg [9] false | QMsg _ [2] => PMsg [] false | QMsg _ [3] => PStatus 712 | QMsg _ _ => PMsg [8] true
  | QEnd _ => PStatus 0
  | QDb _ _ => PStatus 0
  end.
Definition x_serve := serve_client x_sees (fun _ => 3) (fun _ => true) x_enclave (fun _ => true).
(* the rate limiter fails (3): the request goes on *)
Example x_retry : x_serve x_user77 [1; 2] (EWebsocket [RMsg [1]; RMsg [2]; RMsg [3]; RMsg [4]]) =
  [AAuth x_user77 [1; 2] true; ALimit x_user77 3; AUpgrade true; AEnclave (QNew x_id77) (PNew 7 [5]); ASend [5] true;
   ARead (RMsg [1]); AEnclave (QMsg 7 [1]) (PMsg [9] false); ASend [9] true; ARead (RMsg [2]); AEnclave (QMsg 7 [2]) (PMsg [] false);
   ARead (RMsg [3]); AEnclave (QMsg 7 [3]) (PStatus 712); AEnclave (QEnd 7) (PStatus 0); AClose 4014] /\ names x_user77 x_id77.
Proof.
  split; [vm_compute; reflexivity|]. split; [|reflexivity]. apply HostAuthProofs.hex_decode_spec. vm_compute. reflexivity.
Qed.
Example x_finished : x_serve x_user77 [1; 2] (EWebsocket [RMsg [4]; RMsg [1]]) =
  [AAuth x_user77 [1; 2] true; ALimit x_user77 3; AUpgrade true; AEnclave (QNew x_id77) (PNew 7 [5]); ASend [5] true;
   ARead (RMsg [4]); AEnclave (QMsg 7 [4]) (PMsg [8] true); ASend [8] true; AEnclave (QEnd 7) (PStatus 0); AClose 1000].
Proof. vm_compute. reflexivity. Qed.
Example x_refused : x_serve x_user77 [1] (EDelete true) = [AAuth x_user77 [1] false; AStatus 401] /\
  x_serve (1 :: x_user77) [1; 2] (EDelete true) = [AAuth (1 :: x_user77) [1; 2] true; ALimit (1 :: x_user77) 3; AStatus 400].
Proof. split; vm_compute; reflexivity. Qed.
(* the client goes away: nothing is sent to it, the enclave is told *)
Example x_gone : x_serve x_user77 [1; 2] (EWebsocket [RMsg [1]; RClosed]) =
  [AAuth x_user77 [1; 2] true; ALimit x_user77 3; AUpgrade true; AEnclave (QNew x_id77) (PNew 7 [5]); ASend [5] true;
   ARead (RMsg [1]); AEnclave (QMsg 7 [1]) (PMsg [9] false); ASend [9] true; ARead RClosed; AEnclave (QEnd 7) (PStatus 0)].
Proof. vm_compute. reflexivity. Qed.

Print Assumptions C77_wrong_credentials.
Print Assumptions C77_over_the_limit.
Print Assumptions C77_only_for_the_checked_user.
Print Assumptions C77_relayed_in_order.
Print Assumptions C77_one_at_a_time.
Print Assumptions C77_client_closed_once.
Print Assumptions C77_closed_unavailable.
Print Assumptions C77_closed_normal.
Print Assumptions C77_error_closes.
Print Assumptions C77_credentials.
