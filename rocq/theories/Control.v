(* The operator's tool: host/cmd/control/main.go, with the client
   host/web/client/control_client.go and the handler
   host/web/handlers/control.go that it talks to.
   Simplified: requests and answers are values (protojson and HTTP carry them or
   lose them); a printed line of metrics is a tuple; the lines of getStatus
   about single peers are left out. *)
From Verif Require Import Base.
Open Scope N_scope.

Definition id := bytes.
(* main.go:220; peerid.go: an ID is 32 bytes. *)
Definition zero_id : id := repeat 0 32.
Definition tags := list (bytes * bytes).
Definition metric : Type := (bytes * tags * N)%type.

Inductive request :=
| QRelinquish | QReset (i : id) | QConnect (i : id) | QPing (i : id) | QLevel (l : N)
| QMetrics (update : bool) | QMinimum (key value : bytes) | QStatus | QEventLog.
(* msgs.proto, HostToEnclaveResponse; AOther: any other kind, or none. *)
Inductive answer :=
| AStatus (e : N) | AMetrics (counters gauges : list metric) | AEnclaveStatus
| AEventLog (log : bytes) | AOther.

(* What the network does with one request. *)
Inductive fate := Arrives | RequestLost | AnswerLost.

Section Tool.
Context {E : Type}.
(* The host and its enclave, as the handler sees them: SendTransaction may give
   an error (None). *)
Variable send : E -> request -> E * option answer.

(* handlers.go:25-30 *)
Definition response_err (a : answer) : bool := match a with AStatus e => negb (e =? 0) | _ => false end.
(* control.go:60-80, for a PUT of JSON that can be read: 200 with the answer, or
   500 without. *)
Definition control (e : E) (q : request) : E * (N * option answer) :=
  match send e q with
  | (e', None) => (e', (500, None))
  | (e', Some a) => if response_err a then (e', (500, None)) else (e', (200, Some a))
  end.
(* control_client.go:21-27, 50-81 *)
Definition do (f : fate) (e : E) (q : request) : E * option answer :=
  match f with
  | RequestLost => (e, None)
  | AnswerLost => (fst (control e q), None)
  | Arrives =>
      match control e q with
      | (e', (c, body)) =>
          if negb (c =? 200) then (e', None) else
          match body with
          | None => (e', None)
          | Some a => if response_err a then (e', None) else (e', Some a)
          end
      end
  end.

(* What the tool ends with (main.go:181-184): "success", an error, a panic. *)
Inductive ending := Success | Failed | Panic.
Definition ended (a : option answer) : ending := match a with Some _ => Success | None => Failed end.
Definition one (f : fate) (e : E) (q : request) : E * ending := let '(e', a) := do f e q in (e', ended a).
Definition is_zero (i : id) : bool := if list_eq_dec N.eq_dec i zero_id then true else false.

(* main.go:285-290 *)
Definition relinquish f e := one f e QRelinquish.
(* main.go:292-300 *)
Definition reset_peer i f e := if is_zero i then (e, Failed) else one f e (QReset i).
(* main.go:302-310 *)
Definition connect_peer i f e := if is_zero i then (e, Failed) else one f e (QConnect i).
(* main.go:329-347; the name's level, if it has one (NONE has: 0). *)
Definition set_level (l : option N) f e := match l with None => (e, Failed) | Some l => one f e (QLevel l) end.
(* main.go:386-405; the value as hex gives, or fails to give. *)
Definition update_minimum (key : bytes) (value : option bytes) f e :=
  match key, value with
  | [], _ | _, None => (e, Failed)
  | _, Some v => one f e (QMinimum key v)
  end.
(* main.go:312-327: the pings, with what is printed of each (whether it had an error). *)
Fixpoint pings (i : id) (fs : list fate) (e : E) : E * list bool :=
  match fs with
  | [] => (e, [])
  | f :: r => let '(e1, a) := do f e (QPing i) in
              let '(e2, l) := pings i r e1 in
              (e2, match a with Some _ => false | None => true end :: l)
  end.
Definition ping_peer (i : id) (fs : list fate) (e : E) : E * ending * list bool :=
  if is_zero i then (e, Failed, []) else let '(e', l) := pings i fs e in (e', Success, l).

(* main.go:349-384: the lines under the header. *)
Inductive kind := COUNT | GAUGE.
Definition line : Type := (kind * metric)%type.
Definition metrics (sorted : list line -> list line) (update : bool) f e : E * ending * list line :=
  match do f e (QMetrics update) with
  | (e', Some (AMetrics counters gauges)) =>
      (e', Success, sorted (map (pair COUNT) counters ++ map (pair GAUGE) counters))
  | (e', _) => (e', Failed, [])
  end.
(* main.go:236-283: the type assertion panics. *)
Definition status f e : E * ending :=
  match do f e QStatus with
  | (e', None) => (e', Failed)
  | (e', Some AEnclaveStatus) => (e', Success)
  | (e', Some _) => (e', Panic)
  end.
(* main.go:407-423: the file if it is written ([disk]: whether that works). *)
Definition event_log (disk : bool) f e : E * ending * option bytes :=
  match do f e QEventLog with
  | (e', Some (AEventLog log)) => if disk then (e', Success, Some log) else (e', Failed, None)
  | (e', _) => (e', Failed, None)
  end.
End Tool.
