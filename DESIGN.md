# Formal model of SecureValueRecovery2 in Rocq

## Approach

`/verif/rocq/theories` holds a Gallina model of the code in `/repo`
(C++ enclave, plus the parts of the Go host that carry protocol logic), one
model file per source component, a proof file per model file, and `P_*.v`
files that contain only the property theorems (`exact lemma.`) with
`Print Assumptions`.

* State machines are total functions `step : state -> op -> state * out`;
  properties over histories are proved by induction over op lists.
* `CHECK` failures, out-of-bounds reads and other undefined behaviour are a
  distinct outcome (`Crash`/`UB`), never a silent default.
* Cryptography (SipHash, SHA-256, HMAC, Noise AEAD, ristretto, attestation) is
  never modelled concretely.  It is a `Section` variable; every assumption on
  it is a visible hypothesis of the theorem, and an instance satisfying the
  hypotheses is given so the theorem is not vacuous.  Where possible the
  statement is "... or here are two colliding inputs", which needs no
  hypothesis at all.
* `std::map` is a strictly sorted association list with lexicographic byte
  keys, so iteration order is modelled.
* `uint64`/`size_t` wrap is written explicitly wherever it can matter.
* A property the code violates is stated in full and its negation is proved
  as `..._refuted` with a concrete witness; the part that does hold is proved
  beside it.

## Plan per property

| Id | What is modelled | How it is proved |
|----|------------------|------------------|
| C01-C04 | DB2 rows and the six client operations, row by row | refinement of the DB2 step to a per-account abstract automaton, then induction over histories |
| C05 | DB2-5 step functions over sorted maps | frame lemma: op on id k leaves row k' and merkle status of k' alone; non-interference by simulation of the filtered history |
| C06 | Delete/Remove/Purge of DB2-5 | induction over the continuation with "row absent" invariant |
| C07-C08 | DB3, group operation as variable | induction over history with counter invariant |
| C09-C11 | DB4 rows, rotation rows, per-connection state | as above; rotation by algebra over abstract group / xor |
| C12-C13 | RowsAsProtos/LoadRowsFromProtos/HashRow/Hash on structured rows | generic dump/load lemma on sorted maps; serialisation injectivity of HashRow's byte layout |
| C14 | ValidateClientLog and Run with explicit Crash outcome | case analysis + invariant that stored rows are well-formed |
| C15 | protobuf size function of a row | refuted by witness where the constant is too small; bound proved for DB5 |
| C16-C18 | merkle tree as 5-ary tree with stored hashes, flags, curr path | invariant "stored hash = hash of stored children" over op lists; collision extractor for C17; C18 refuted by witness |
| C19,C23,C24 | Raft node as executable step function; network = set of all messages ever sent; rollback = restore any earlier state | invariants over monotone history of promises, votes, and log prefixes; quorum intersection |
| C20-C22 | one Raft node under arbitrary input | per-step invariant |
| C25-C26 | quorum_size (with wrap), ValidProgressionForLeader on finite sets | arithmetic, list-set cardinalities |
| C27,C28 | same network with membership changes | refuted by an executable trace, if the suspected violations are confirmed; C27 while any two quorums of the memberships asked for overlap: the invariant of C19 with a set of memberships in place of one, then for one voter that comes and goes; C28 for entries committed in their own term: invariant over all past states (votes and the requests they answer, terms rise along a log, each entry goes back to a leader), then induction on the later leader's term |
| C29 | Log with byte accounting | refinement to a list; accounting refuted for CancelFrom |
| C30 | client transactions, outstanding map, committed entries | invariant over histories |
| C31 | replication source/destination | simulation invariant: destination = source restricted to loaded key range |
| C32 | NextReplicaGroup | case analysis, linked with C26 |
| C33 | GetTime | sorting/median argument |
| C34 | Timeout | invariant over op lists |
| C35-C36 | UpdateLimits/CheckValues | order theory on big-endian values; C36 refuted by witness if confirmed |
| C37-C38 | Peer state machine, Noise chunking with ideal AEAD | invariants over message sequences |
| C39-C41 | framing, write queue, work queue | invariants over interleavings |
| C42-C44 | codecs | round trip by induction; UB outcome for table reads |
| C60 | answers to requests (CoreTx) | invariant; refuted for late answers of the leader |
| C45-C46 | ids and E2E transactions | freshness invariant |
| C47 | PeerID | order lemmas |
| C48-C49 | host sequence numbers, sender/receiver, reconnects | invariant over schedules; witness trace |
| C50-C52 | varint framing, auth, dispatcher | round trip, case analysis, invariants |
| C53 | config validation and raft lifecycle | case analysis/invariant |
| C54 | DB5 keys | as C01 |
| C55 | limits changed through the log | invariant; refuted for two updates in flight |
| C56 | requests of a client connection over Noise | as C37: invariant over what the network delivers |
| C57-C58 | ClientManager cut at its critical sections | invariant over interleavings; refuted by schedules where races exist |
| C59 | joining a group, attempts and answers | invariant; refuted by a history |
| C61 | TPM quotes, signatures, PCRs byte by byte | parser against an independent description of the format, both directions |
| C62 | the table of SNP certificates | loop invariant against a description of tables; refuted by wrap-around |
| C63-C66 | the verifier of evidence over an arbitrary world of certificates, hashes, signatures and JSON | equivalence with a declarative description; witnesses in a small world |
| C67-C69 | the verifier of Nitro evidence over an arbitrary world of CBOR values, certificates, hashes and signatures | equivalence with a declarative description; uniqueness of what is signed; witnesses in a small world |
| C70, C71 | whole replicas (core, raft, database, waiting and forwarded requests) on a network that loses, duplicates, delays and reorders, a host that puts replicas back; any database, then the SVR2 store | invariant over all schedules on top of C19's: states, logs and what was seen agree with one run of the longest committed log; then C01/C02's counting on that run |
| C72 | the group of C70, with what was asked, run and answered in the order of time | each location handed to a replica names an entry made for that request alone (leaders of a term only append, C73); an answer is given while running that entry; entries run anywhere before a request are below its entry |
| C73 | the network of replicas of C19 | a leader that was never put back only appends; invariant: its log has all entries of its term, every message carries part of such a log, so index and term fix the log |
| C74 | all hosts of a group and their Redis as one machine; each call of a host is a step | invariant over all steps: the lock names the only creator; whoever is shown as a member has got in; by induction on the joins all lead back to the creator |
| C75 | the same | refuted: states in which the lock is taken and nobody is shown stay so under every step; proved: with a free lock or a shown member a new host gets in |
| C76 | the group of C70, and the host's close codes | invariant over all schedules: the entries that hold a request's contents stand at one place of one term; an answer to try again is given without an entry, or when another entry was run at that place |
| C77 | the host's two client endpoints with their checks, as functions to a trace; enclave, client, authenticator and rate limiter are arbitrary functions of what happened before | induction over the client's reads gives the grammar of all traces; the claims are read off |
| C78 | GroupDelete.v, ReqWire.v, HostWeb.v: the host's bytes through each store's parser into a group | done_after: what one entry establishes and no later entry undoes holds in every state past it (one_database of C70); refuted for SVR3 and SVR5 by concrete groups |
| C79 | ReqWire.v over Wire.v | round trip of each message; a parsed request fits the wire format, hence the log entry made from it reads back |
| C80 | every handler as the sequence of locks it takes and gives back, with the connections, the calls that wait for an answer and the flag of a transfer as shared data (Locks.v) | a rank for each lock, shown to grow along every handler; invariant over interleavings; termination by well-founded induction. Refuted by a schedule for one race (core.cc:1331-1337), partial for all executions without it |
| C81 | every handler of a host request and every callback that holds a request's number (Answers.v) | the number of answers plus the number of callbacks that hold a number is what was asked, an invariant; joining is refuted by two histories |
| C82 | SGX's environment over arbitrary functions for Open Enclave, rapidjson and libc (Sgx.v) | acceptance is equivalent to a specification of the claims; evidence made by Evidence meets it |
| C83 | as C82 | the cases that are not answered are given by three conditions; refuted by evidence for each, and by a negative evaluation number |
| C84 | the goroutines of the host as one transition system: channel of outputs with a capacity, workers in calls that will put out any list of messages, the reader, the senders' goroutines and their lock | invariants on who holds the lock and whose call a worker is in; a state in which nothing can go on has a full channel, a call with more to put out, and a reader inside of ResetPeer; refuted by a history for every number of workers |
| C85 | both ends of the socket as one transition system: callers, the map of calls, messages under way, threads of the enclave, the reader and its channel | an invariant that counts where each message is (at most one place), with ids tied to calls; a measure that every step of what has begun decreases; return of every call refuted by a lost connection |
| C86 | calls of the enclave as program counters over the shared state (state flag, core, environment); the locking of the host's Init as statements with deferred ones | an invariant on the program counters: at most one call is in a start, and only while the flag says so; report of a failed start refuted: Init takes its own lock again |
| C87 | the replica group of C27; the membership of a list of entries by a fold over them | an invariant per replica: the committed membership and the list of uncommitted ones are those of the committed part and of the rest of its full log; the bound of the commit index comes from the invariant of C27 |
| C88 | the replica group of C27; a failed CHECK or bad access is the result `Crash` of a call | an invariant per replica from which every call runs, except on an acknowledgement beyond the log: stored log, follower table with all members, valid quorums, role; and one over the messages under way: an acknowledgement names no more than the leader it answers has in that term, unless it was put back |
| C89 | the host's loop over the results of its attempts; the three handlers over the replica of Raft.v | refuted: the loop looks at the host's errors only, so it ends when the enclave refused; proved: when it ends, what a removal takes into the log (by the membership parsed back), that nobody removes itself, and by induction over all later calls that the last replica of a group waits for ever |
| C90 | the group of C27 (RaftNet.v), event by event | invariant over all past states: for every follower in a leader's table, that follower was, in the leader's term, in a state whose log starts with as much of the leader's log as the table says (new table entries: by the hash the leader checks); the walk over one call shows that only TryToRelinquishLeadership sends the message |
| C91 | RandomBytes of every environment over a memory that holds the buffer and what is around it, its source as the list of its answers; the callers by what they do with the result (Random.v) | induction over the answers with one statement for every result (what the source gave is what the buffer holds, nothing else changed); refuted with witnesses for the simulated Nitro environment and the callers that ignore the result |
| C92 | the contexts of all threads as stacks of measurements, the shared counters, a clock of 64 bits (Cpu.v) | invariant over the interleaved events: each context's innermost measurement starts at its last event; counters equal the time line's sum mod 2^64 |
| C93 | the counters' table (copied from counters.h), snapshots, the host's matching of counters and differences, float32 rounding of integers (Metrics.v) | induction over the polls: each adds the rounded rise; the table's keys are distinct (computed); bound on the rounding |
| C94 | The validators and what each loop does with its numbers (`HostConfig.v`); a case analysis says exactly which accepted configurations fail. False of the code as it is (the peer section's validator is never called, two periods are not checked): refuted with witnesses. |
| C95 | fmt's rule for which String method applies, over values, structs and pointers (`HostConfig.v`); refuted for every password: the log line contains it. |
| C96 | The retry loop and the connection loop over a list of outcomes with durations (`HostRetry.v`); induction over the list. |
| C97 | The user agent's pattern as a function on runes, the response recorder over lists of calls, the labels (`HostTags.v`). The user agent's part is bounded (proved); the method is a label as the client sent it, before credentials are looked at: refuted with 2^n refused requests that make 2^n counters. |
| C98 | The limiter's script over a store of keys and a list of requests and expiries (`Rate.v`); an invariant ties a user's entry to the requests let in since some moment, which gives an exact characterisation. False of the code where Redis does not answer (requests pass) and for the wait a client is told (cut to whole seconds): refuted. |
| C99 | LogLevel.v: levels as integers, the log statement with its body, CHECK, settings, the signal handler, the server threads. Proved: CHECK stops at every level; after every history a fatal statement stops, and threads serve, exactly if the level in force is at least FATAL. Refuted for NONE and negative levels. |
| C100 | LogLevel.v: the host's handler, what the enclave answers, which messages the host writes. Proved for every name but MAX with the enclave in reach; refuted for MAX and for an enclave out of reach. |
| C101 | Control.v: the tool's commands over an arbitrary host (a state machine that answers requests) and a network that may lose the request or the answer. Proved: success exactly if the request was done; each ping is reported as it went; the COUNT lines are the counters; the event log is the one given. Refuted for the ending of pingPeer and for the GAUGE lines. |
| C102 | Health.v: the sequence of checks as a recursion over their starts, with a ticker that keeps one tick, over an arbitrary function from the time of a request to its answer. Proved by induction on the checks: one answer at every time, how old it can be, silence and recovery noticed; readiness by induction on histories. |
| C103 | Fs.v: the read loop over an arbitrary schedule of reads and a table of descriptors; removal over trees. Proved by induction on the contents and on trees; refuted with standard input closed and for trees that hold anything but files and directories. |
| C104 | AzureInit.v: Init over an arbitrary machine whose state the commands change. Proved: Init comes back exactly if every step succeeded and the evidence verified (with fatal messages logged); how long a command is tried. Refuted below FATAL, for the two to three minutes that are meant, and for a server that answers with an error. |
| C105 | LoadTest.v: workers as a list of steps on one atomic counter, hosts as a list in the order a map is walked, the statistics as a fold. Proved by an invariant over schedules and by induction; refuted for counts from 2^31, for how connections are spread, and for the least times. |
| C106 | Model the tool that quotes, the merge of the evidence of the start with that of the moment, and the start, over an arbitrary TPM, certificate server, SEV firmware and verification; prove what evidence is made of and when the start goes on, by cases; refute that a passing failure does not stop it. |
| C107 | Model the names of users, the requests and the status of each subcommand over an arbitrary server and hash; prove the names by induction over hex strings and the status of backup and expose by cases; refute it for restore, the load test and unknown subcommands. |
| C108 | Model a session over a host that drops, repeats and makes up messages, with ideal encryption and the numbering of the Noise specification; prove the order of requests and answers by an invariant over all exchanges; refute that after a message that does not open answers still belong to their requests. |
| C109 | Model memory as slots that an arbitrary allocator gives to rows, and what each kind of row clears when it is updated, erased, moved and destroyed; prove by an invariant over all histories that nothing is left for the two later databases, and for SVR2 without loading; refute it for SVR3 and for rows that SVR2 loads. |
| C110 | Over the sessions of DB4.v, take the two accepted proofs apart (C11), cancel in the group, and split the hashed bytes from the end; the conclusion names the colliding inputs. |

## Trusted base

* Coq 8.16.1's kernel, including its `vm_compute` conversion (used for witnesses
  and examples only) and coqc/coq_makefile.
* No axioms: every `Print Assumptions` in the `P_*.v` files prints "Closed under
  the global context".  Only Coq's standard library is imported; the
  `Coq.ssr.ssrunder.Under_rel.*` constants an axiom scan may list are module-type
  parameters inside the standard library's `ssrunder` file, on which no theorem
  here depends.
* The faithfulness of the model to `/repo`: each definition cites the lines it
  models and says where it simplifies.

Hypotheses that stand for cryptography or for C++ types are visible in the
theorem that uses them: output lengths of hash functions; `add_closed` (libsodium
returns reduced scalars) in the DB4 transfer and integrity theorems; `typed_*`
(a uint8_t is below 256, a std::array has its length).

## Modelled so far

| Model files | Source |
|---|---|
| Util | util/bytes, util/constant, endian helpers |
| Wire | protobuf wire format of the row messages (varints, length-delimited fields, unknown fields skipped; groups are rejected) |
| DBCommon, DB2, DB3, DB4, DB5 | enclave/db/*.cc: validation, log creation, Run, row transfer, hashing |
| Merkle | enclave/merkle/merkle.cc without Leaf move/Replace, metrics, destruction of the whole tree |
| MerkleDB | the stores and their tree together: which tree calls each request makes |
| RaftLog | enclave/raft/log.{h,cc} and the log entries of raft.proto, without metrics |
| Membership | enclave/raft/membership.{h,cc} and quorum_size |
| Raft | enclave/raft/raft.{h,cc}: every public call of one replica, without metrics; the random election timeout and the verdict of the integrity tree over commit/promise are inputs |
| RaftNet | the group: any number of Raft replicas, a network that may drop, duplicate, delay and reorder but not forge, calls by the host at any time, and rollback of a replica to any earlier state. All replicas start freshly constructed with one membership over a common committed log (core.cc:443-485, 649-673); a crashed replica is one never called again |
| GroupClock | enclave/groupclock/groupclock.cc and core.cc:947-1006 (who takes part, when time advances) |
| Timeout | enclave/timeout/timeout.cc; the functions run by a tick are separate steps in any order |
| Minimums | enclave/minimums/minimums.cc without CombineValues; core.cc:885-911 and 1859-1867 for limits changed through the log |
| Codec | enclave/util/hex, base64; enclave/peerid without the hasher |
| Socket.v | socketwrap/socket.{h,cc}: ReadAll, ReadPB, WritePB, WriteThread, FlushIfAble |
| Queue.v | queue/queue.h |
| Noise.v | noise/noise.cc Encrypt, Decrypt; Peer::Send/Recv data path and rekeying (peers.cc 71-99, 121-141); client.cc DecryptRequest, EncryptResponse |
| Client.v | client/client.cc ClientManager (NewClient, GetClient, RemoveClient, RotateKeyAndRefreshAttestation, RefreshAttestation, ClientArgs), cut at its critical sections |
| Peers.v | peers/peers.cc Peer (Send, Recv, Accept, FinishConnection, Connect, Reset, CheckNextAttestation, CheckMinimums, MaybeDisconnectIfAttestationTooOld) and PeerManager (SetPeerAttestationTimestamp, MinimumsUpdated, ResetPeer, RecvFromPeer), cut at lock and clock reads |
| `Life.v` | core/core.cc: configuration checks, Create, Reconfigure, creating and joining a group, phases of a replica |
| `Heal.v` | core/core.cc: NextReplicaGroup, raft.cc: last_seen_ticks, leader |
| E2E.v | core.cc: SendE2ETransaction, HandleE2E (responses), ResetPeer; over Timeout.v |
| CoreTx.v | core.cc: RaftWriteLogTransaction, AddLogTransaction, ClientLogTransaction, RaftHandleCommittedLogs, HandleRaftMembershipChange, HandleLogTransactionsForRaftLog; over Raft.v |
| HostLink.v | host/peer/sequence_number.go, client.go, server.go: one sender, one receiver, queues, numbers, acknowledgements, reconnection, abandonment |
| HostFrame.v | host/util (length-prefixed frames), encoding/binary's uvarint |
| HostAuth.v | host/auth (user tokens) |
| HostDispatch.v | host/dispatch/dispatcher.go, host/util/txid.go |
| Repl.v, ReplDB.v | core/core.cc 579-669, 1234-1445: the state transfer to a joining replica, over each database |
| Tpm2.v | enclave/attestation/tpm2/tpm2.{h,cc} |
| Evidence.v | what attestation needs from BoringSSL, rapidjson and protobuf, as a record of functions that theorems quantify over; minimums.cc CombineValues |
| Snp.v | enclave/attestation/sev/sev.cc but for attestation through the device; the layout of AMD's report is from its ABI, as the header is not in /repo |
| Tpm2Snp.v | enclave/attestation/tpm2snp/tpm2snp.cc: verification, runtime data; azuresnp.cc and gcpsnp.cc call it |
| Nitro.v | enclave/attestation/nitro/nitro.{h,cc}, enclave/env/nsm/nsm.cc Attest and PCRsMatch; tinycbor's values are given by an arbitrary function |
| Group.v | a group of whole replicas over the network of RaftNet.v: core.cc 1506-1527 (requests forwarded to the leader), 1447-1504 and 1540-1577 (changes of the membership asked of the leader), 1584-1607, with CoreTx.v, Raft.v |
| GroupPin.v | core.cc 1887-1902 over DB2.v |
| HostJoin.v | host/peer/peerdb/peerdb.go, host/raftmanager/raftmanager.go, host/service/service.go:83-135 |
| GroupRetrySpec, GroupRetryProofs, RaftNewProofs, P_GroupRetry | (proofs about Group; where the entries of a log come from) |
| HostWeb | host/web/handlers/{websocket,delete_backup,handlers}.go, host/web/middleware/{auth,rate}.go, host/service/service.go:98-105 |
| HostWebSpec, HostWebProofs, P_HostWeb | (proofs about HostWeb) |
| ReqWire.v (requests and log entries as protobuf bytes; what becomes a log entry) | shared/proto/client.proto, client3.proto, client4.proto, client5.proto, enclave/proto/clientlog.proto, core.cc:390-441, 772-798, db{2,3,4,5}.cc LogFromRequest |
| GroupDelete.v (a group with each of the stores as its database) | core.cc:1887-1902 |
| Locks.v (the locks each handler takes; threads) | core.cc, peers.cc, client.cc, timeout.cc, minimums.cc, groupclock.cc, socketwrap/socket.cc, socketmain.cc:129-147, context.h:95-105 |
| LocksSpec, LocksProofs, LocksInv, P_Locks | (proofs about Locks) |
| Answers.v (the numbers of host requests in handlers and callbacks) | core.cc:76-85, 188-592, 594-712, 772-911, 1127-1179, 1533-1573, 1609-1722, 1759-1783, 1825-1857, 1904-1972 |
| AnswersSpec, AnswersProofs, P_Answers | (proofs about Answers) |
| Sgx.v (attestation on SGX) | enclave/env/sgx/sgx.cc: constructor, Evidence, Attest; enclave/attestation/oe/attestation.cc |
| SgxSpec, SgxProofs, P_Sgx | (proofs about Sgx) |
| HostFlow.v | host/dispatch/dispatcher.go, host/peer/client.go, host/enclave/sgx.go: who waits for whom |
| HostSocket.v | host/enclave/socket.go, enclave/socketmain/socketmain.cc RunServerThread, enclave/env/socket/socket.cc: calls and answers |
| Start.v | enclave/ecalls/ecalls.cc; host/enclave/sgx.go Init, Close: locking only |
| MemberLogSpec.v, MemberLogProofs.v, P_MemberLog.v | no new code: the membership lists of Raft.v against the full log of RaftNet.v (enclave/raft/raft.cc) |
| StopSpec.v | vocabulary of C88: what it is that a call or delivery aborts; no code of its own, the program is Raft.v and RaftNet.v |
| Shutdown.v | host/service/service.go:149-168 (the loop on SIGTERM); dispatcher.go:102-118 SendTransaction (error or answer); core.cc:818-860 HandleRelinquishLeadership, HandleHostRequestedRaftRemoval, 1532-1573 HandlePeerRequestedRaftRemoval |
| Random.v: random bytes of all environments and what the callers do with the result | enclave/env/socket/socket.cc, env/nsm/nsm.cc, env/sgx/sgx.cc RandomBytes, env/env.cc, and the callers in merkle, core, sip, noisewrap, fs, ecalls |
| Cpu.v: measured sections of code, and the counters they add to | enclave/context/context.{h,cc}, metrics/metrics.cc IncrementBy |
| Metrics.v: all counters of the enclave, snapshots of them, what the host writes | enclave/metrics/metrics.cc AllAsPB, counters.h, host/dispatch/metrics.go, dispatcher.go metricLoop; without gauges |
| HostConfig.v | host/config/*.go (validation, defaults), what service.go, dispatcher.go, raftmanager.go and peer/client.go do with the numbers, how main.go logs the configuration |
| HostRetry.v | host/util/util.go (Clamp, RetrySupplierWithBackoff), host/peer/client.go peerSender.run |
| HostTags.v | host/util/user_agent.go (with the regular expression and Go's case folding), host/web/middleware/metrics.go, auth.go |
| Rate.v | host/rate/rate.go, host/web/middleware/rate.go; the script of the library redis_rate v10, which is not in /repo, as published and with exact arithmetic |
| LogLevel.v | enclave/util/log.h, log.cc, macros.h (CHECK); core.cc:320-327; socketmain.cc:165-167, 183-206; env/socket/socket.cc:23-60; host/web/handlers/set_log_level.go; host/enclave/socket.go:167-180, logging.go |
| Control.v | host/cmd/control/main.go (all commands but `command`; of `status` only how it ends); host/web/client/control_client.go; host/web/handlers/control.go, handlers.go:25-30 |
| Health.v | host/health/health.go; host/service/service.go:47-52, 117-118, 137-147, 185-229 |
| Fs.v | enclave/fs/fs.cc (all) |
| AzureInit.v | enclave/env/azuresnp/azuresnp.cc:93-188 (Init; the quotes taken twice there are one function of the machine's state) |
| LoadTest.v | host/cmd/svr3client/main.go:115-175 (hosts), 185-305 (runLoadTest: how users are taken, the statistics) |
| GcpInit.v | enclave/env/gcpsnp/gcpsnp.cc (Evidence, Init, GcpEvidenceAndEndorsements, SnpReport; the device arbitrary), host/cmd/svr3gcp/main.go (Run) |
| SvrClient.v | host/cmd/svr2client/main.go (main, toUser, the subcommands; the connection arbitrary) |
| GoClient.v | host/web/client/svr.go (send, Send2, Send3; the handshake done, encryption ideal) |
| Zeroing.v | enclave/util/bytes.cc (MemZeroS); what db2.cc, db3.cc, db4.cc and db5.cc leave of rows in memory |

## Not modelled

Open Enclave's verifier (an arbitrary function, Sgx.v), the attestation devices, X.509, JSON and CBOR parsing, TLS/HTTP front end, metrics
(but for counters, Metrics.v, and measured time, Cpu.v), logging (but for levels and fatal messages, LogLevel.v), memory allocation failure, Redis (apart from a map and a lock, HostJoin.v, and the limiter's script, Rate.v), real clocks, protobuf wire parsing
other than that of database rows, requests and log entries (other messages are structured values).  Thread interleavings are
modelled at the granularity of critical sections, and for locks (Locks.v) at that of each acquisition and release; in Locks.v the
branches that handlers take are arbitrary, except where they depend on connections, waiting calls or the flag of a transfer.

This file is updated with the exact trusted base as the development grows.
