(* The host's configuration: which are accepted (host/config/*.go), what the
   host's loops make of the numbers in it (host/service/service.go,
   host/dispatch/dispatcher.go, host/peer/client.go,
   host/raftmanager/raftmanager.go), and how it is logged (host/main.go).
   Simplified: the file has been read and YAML parsed into the record; fields
   that nothing below depends on are left out; durations are nanoseconds. *)
From Verif Require Import Base.
Open Scope Z_scope.

(* config/config.go:21-53, raft.go, redis.go, rate.go, peer.go, request.go. *)
Record config := Config {
  raft_tick : Z; raft_attest : Z; raft_metrics : Z; raft_refresh : Z;
  raft_concurrency : Z;
  redis_addrs : list bytes; redis_password : bytes; redis_name : bytes;
  limit_skip : bool; limit_bucket : Z; limit_rate : Z; limit_period : Z;
  peer_min : Z; peer_max : Z; peer_abandon : Z; peer_buffer : Z;
  req_handshake : Z; req_socket : Z;
  live_period : Z }.

(* What validation complains about; one for each message. *)
Inductive complaint := Concurrency | Tick | Attest | NoAddrs | BadAddr (a : bytes)
  | Bucket | Rate | Buffer | MinMax | Handshake | SocketTime.
Definition complain (b : bool) (c : complaint) : list complaint := if b then [c] else [].

(* raft.go:28-40 *)
Definition raft_validate (c : config) : list complaint :=
  complain (raft_concurrency c <=? 1) Concurrency ++ complain (raft_tick c <=? 0) Tick ++
  complain (raft_attest c <=? 0) Attest.
(* strings.Split(addr, ":"): one part more than there are colons. *)
Definition parts (a : bytes) : nat := S (length (filter (fun b => (b =? 58)%N) a)).
(* redis.go:25-37 *)
Definition redis_validate (c : config) : list complaint :=
  complain (match redis_addrs c with [] => true | _ => false end) NoAddrs ++
  flat_map (fun a => complain (negb (Nat.eqb (parts a) 2)) (BadAddr a)) (redis_addrs c).
(* rate.go:22-34 *)
Definition limit_validate (c : config) : list complaint :=
  if limit_skip c then [] else
  complain (limit_bucket c <? 0) Bucket ++ complain (limit_rate c <? 0) Rate.
(* request.go:19-28 *)
Definition request_validate (c : config) : list complaint :=
  complain (req_handshake c <=? 0) Handshake ++ complain (req_socket c <=? 0) SocketTime.
(* peer.go:22-31 *)
Definition peer_validate (c : config) : list complaint :=
  complain (peer_buffer c <? 1) Buffer ++ complain (peer_max c <? peer_min c) MinMax.

(* config.go:58-68: Raft, Redis, Limit and Request are asked, Peer is not. *)
Definition validate (c : config) : list complaint :=
  raft_validate c ++ redis_validate c ++ limit_validate c ++ request_validate c.
(* config.go:71-85 Read, after parsing. *)
Definition read (c : config) : option config :=
  match validate c with [] => Some c | _ => None end.

(* config.go:96-151 Default, on a machine with [cpus] processors. *)
Definition second : Z := 1000000000.
Definition default (cpus : Z) : config :=
  {| raft_tick := second; raft_attest := 600 * second; raft_metrics := 10 * second;
     raft_refresh := 60 * second; raft_concurrency := Z.min cpus 64;
     redis_addrs := [[108; 111; 99; 97; 108; 104; 111; 115; 116; 58; 54; 51; 55; 57]%N];
     redis_password := []; redis_name := [116; 101; 115; 116]%N;
     limit_skip := false; limit_bucket := 10; limit_rate := 10; limit_period := 60 * second;
     peer_min := second / 100; peer_max := 60 * second; peer_abandon := 600 * second;
     peer_buffer := 10000; req_handshake := 30 * second; req_socket := 30 * second;
     live_period := 60 * second |}.

(* Go: time.NewTicker panics unless its period is positive; time.Tick returns a
   channel that never fires; make(chan T, n) panics if n is negative. *)
Definition new_ticker (d : Z) : outcome Z := if d <=? 0 then Crash else Ret d.
Definition tick_chan (d : Z) : option Z := if d <=? 0 then None else Some d.
Definition make_chan (n : Z) : outcome Z := if n <? 0 then Crash else Ret n.

(* The host once it runs: how many threads hand requests to the enclave, how
   often its loops wake up (None: never), how many messages to a peer may
   wait. *)
Record running := Running {
  forwarders : Z; ticks_every : Z; attests_every : Z; polls_every : Z;
  checks_every : Z; refreshes_every : option Z; room : Z }.

Definition bind {A B} (o : outcome A) (f : A -> outcome B) : outcome B :=
  match o with Ret a => f a | Crash => Crash end.

(* service.go:41-171 Start as far as the configuration goes: dispatcher.go:133-156
   (threads that forward, one is left for ticks), 176-177, 194-195, 232-233;
   service.go:186; raftmanager.go:76; client.go:252-268, when a peer is first
   sent to. *)
Definition start (c : config) : outcome running :=
  bind (new_ticker (raft_tick c)) (fun tick =>
  bind (new_ticker (raft_metrics c)) (fun poll =>
  bind (new_ticker (raft_attest c)) (fun attest =>
  bind (new_ticker (live_period c)) (fun check =>
  bind (make_chan (peer_buffer c)) (fun n =>
  Ret {| forwarders := Z.max 0 (raft_concurrency c - 1); ticks_every := tick;
         attests_every := attest; polls_every := poll; checks_every := check;
         refreshes_every := tick_chan (raft_refresh c); room := n |}))))).

(* client.go:367-386 queueMessage, when nobody is just taking a message: it is
   queued if there is room. *)
Definition queue_message (s : running) (waiting : Z) : bool := waiting <? room s.

(* Go values as fmt prints them: text, structs, pointers.  A struct type may
   have a String method with a value or a pointer as its receiver; it is given
   by what it returns. *)
Inductive method := NoMethod | OnValue (s : bytes) | OnPointer (s : bytes).
Inductive gov :=
| GText (b : bytes)
| GStruct (m : method) (fields : list (bytes * gov))
| GPtr (v : gov).

(* fmt's %+v.  A String method is used if it is in the method set of the
   value's type: of a struct the ones on values, of a pointer both.  A pointer
   to a struct without it is "&{..}" at the top, an address below. *)
Section FMT.
Variable address : gov -> bytes.
Fixpoint show (top : bool) (v : gov) : bytes :=
  match v with
  | GText b => b
  | GStruct m fields =>
      match m with
      | OnValue s => s
      | _ => [123%N] ++ flat_map (fun f => fst f ++ [58%N] ++ show false (snd f) ++ [32%N]) fields ++ [125%N]
      end
  | GPtr w =>
      match w with
      | GStruct (OnValue s) _ => s
      | GStruct (OnPointer s) _ => s
      | _ => if top then 38%N :: show false w else address v
      end
  end.
End FMT.

(* redis.go:12-23 and 39-42: the section as a value.  String leaves the password
   out; [str] formats the rest.  [recv] is its receiver: in the code a pointer.
   The two sleep times, printed after the name, are left out. *)
Definition redis_value (recv : bytes -> method) (str : list bytes -> bytes -> bytes) (c : config) : gov :=
  GStruct (recv (str (redis_addrs c) (redis_name c)))
    [([65; 100; 100; 114; 115]%N, GText (concat (redis_addrs c)));
     ([80; 97; 115; 115; 119; 111; 114; 100]%N, GText (redis_password c));
     ([78; 97; 109; 101]%N, GText (redis_name c))].

(* config.go:21-53 the whole; the fields before and after Redis are arbitrary. *)
Definition config_value (recv : bytes -> method) (str : list bytes -> bytes -> bytes)
    (before after : list (bytes * gov)) (c : config) : gov :=
  GStruct NoMethod (before ++ [([82; 101; 100; 105; 115]%N, redis_value recv str c)] ++ after).
(* main.go:83 logger.Infof("Host config: %+v", *hconfig): the struct itself, not
   a pointer. *)
Definition log_line (address : gov -> bytes) (str : list bytes -> bytes -> bytes)
    (before after : list (bytes * gov)) (c : config) : bytes :=
  show address true (config_value OnPointer str before after c).
