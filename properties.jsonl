{"id": "C01", "title": "SVR2 PIN guess limit", "statement": "After a backup with max_tries = t has been stored and exposed for an account, and as long as nobody sends a new backup for that account, at most t Restore requests carrying a wrong PIN are ever answered as a guess: the k-th wrong guess (k < t) is answered PIN_MISMATCH with t-k tries left, the t-th erases the record, and every later Restore is answered MISSING.", "quantifier": "every history of client requests (any accounts, any order, any PINs, any t in 1..255)", "why_tests_cant": "the number and interleaving of guesses, other accounts' requests, deletes and tries-queries is unbounded; a test samples a few sequences", "anchors": ["enclave/db/db2.cc:DB2::Restore", "enclave/db/db2.cc:DB2::Backup", "enclave/db/db2.cc:DB2::Run"]}
{"id": "C02", "title": "SVR2 Restore returns only the exposed secret, only for the right PIN", "statement": "A Restore answered OK carries exactly the data that the account's most recent Backup stored, that backup was subsequently exposed, and the PIN in the request is byte-for-byte the PIN of that backup; in every other situation the answer carries no data.", "quantifier": "every history of requests, every PIN/data of legal size", "why_tests_cant": "requires ranging over all PIN values and all histories between backup and restore", "anchors": ["enclave/db/db2.cc:DB2::Restore", "enclave/db/db2.cc:DB2::Expose", "enclave/db/db2.cc:DB2::Backup"]}
{"id": "C03", "title": "SVR2 right PIN never costs a try; tries never go up", "statement": "A Restore with the right PIN leaves the remaining-tries count unchanged, a wrong one lowers it by exactly one, and no request other than a new Backup ever raises it; a Tries query always reports the current count and never changes it.", "quantifier": "every history of requests", "why_tests_cant": "monotonicity over unbounded histories", "anchors": ["enclave/db/db2.cc:DB2::Restore", "enclave/db/db2.cc:DB2::Tries"]}
{"id": "C04", "title": "SVR2 backup is invisible until exposed, and Expose needs matching data", "statement": "Between a Backup and a successful Expose for that account no Restore returns data (it is MISSING and costs no try), and Expose succeeds only if the request's data starts with the data stored by the backup.", "quantifier": "every history of requests and all data/pin values", "why_tests_cant": "state x input space is unbounded", "anchors": ["enclave/db/db2.cc:DB2::Expose", "enclave/db/db2.cc:DB2::Restore", "enclave/util/constant.h:ConstantTimeEqualsPrefix"]}
{"id": "C05", "title": "Accounts are isolated", "statement": "The answers an account's owner sees depend only on the requests made for that account id: removing from the history every request for other ids changes none of the answers, for every one of the database versions 2, 3, 4 and 5.", "quantifier": "every pair of accounts and every interleaving of their requests", "why_tests_cant": "a non-interference statement compares pairs of unbounded histories", "anchors": ["enclave/db/db2.cc", "enclave/db/db3.cc", "enclave/db/db4.cc", "enclave/db/db5.cc"]}
{"id": "C06", "title": "Deletion is final", "statement": "After a Delete/Remove/Purge for an account is applied, every query/restore/evaluate/download for it answers MISSING (no data, zero tries) until a new backup/create/upload is stored, in databases 2, 3, 4 and 5.", "quantifier": "every history following the delete", "why_tests_cant": "unbounded continuation of history", "anchors": ["enclave/db/db2.cc:DB2::Delete", "enclave/db/db3.cc:DB3::Remove", "enclave/db/db4.cc:DB4::Remove", "enclave/db/db5.cc"]}
{"id": "C07", "title": "SVR3 (DB3) evaluation limit", "statement": "After Create with max_tries = t, at most t Evaluate requests with a valid element are answered with an evaluated element before another Create; the k-th reports t-k tries remaining, the t-th removes the key, after which Evaluate answers MISSING. An invalid element is answered ERROR and costs no try.", "quantifier": "every history of requests and every element", "why_tests_cant": "unbounded histories", "anchors": ["enclave/db/db3.cc:DB3::Evaluate", "enclave/db/db3.cc:DB3::Create"]}
{"id": "C08", "title": "SVR3 evaluation is by the key fixed at creation", "statement": "Every Evaluate answered OK between one Create and the next returns the element multiplied by the same private key, the one generated for that Create, no matter what happens in between.", "quantifier": "every history of requests, every element", "why_tests_cant": "all histories and inputs", "anchors": ["enclave/db/db3.cc:DB3::Evaluate", "enclave/db/db3.cc:DB3::ClientState::LogFromRequest"]}
{"id": "C09", "title": "DB4 restore attempts are bounded", "statement": "After Create with max_tries = t, every Restore1 that is answered OK lowers the remaining tries by one, so at most t of them are answered between one Create and the next; the t-th removes the account. The remaining tries are reported truthfully by Query.", "quantifier": "every history of requests", "why_tests_cant": "unbounded histories, interplay with rotation and create-without-tries-reset", "anchors": ["enclave/db/db4.cc:DB4::Restore1", "enclave/db/db4.cc:DB4::Create"]}
{"id": "C10", "title": "DB4 rotation is atomic and reversible", "statement": "RotateStart followed by RotateCommit of the same version replaces the shares by share+delta (scalar addition / xor) and moves to the new version; followed by RotateRollback it leaves the account exactly as before RotateStart; while a rotation is pending, Restore1 exposes both versions and no request of another version has any effect.", "quantifier": "every account state, every share/delta, every history between start and commit/rollback", "why_tests_cant": "all values of shares and all interleavings", "anchors": ["enclave/db/db4.cc:DB4::RotateStart", "enclave/db/db4.cc:DB4::RotateCommit", "enclave/db/db4.cc:DB4::RotateRollback"]}
{"id": "C11", "title": "DB4 Restore2 is gated by one Restore1 and the client's proof", "statement": "A Restore2 answer releases a secret share only if it is the very next request on that connection after a Restore1 answered OK, and the client's proof verifies against the commitment stored at creation; the state is consumed by any next request.", "quantifier": "every request sequence on a connection", "why_tests_cant": "all sequences of requests, including failed ones", "anchors": ["enclave/db/db4.cc:DB4::ClientState::ResponseFromRequest", "enclave/db/db4.cc:DB4::ClientState::Restore2"]}
{"id": "C12", "title": "State transfer of a database is lossless", "statement": "Dumping a database in chunks of any sizes with RowsAsProtos and loading the chunks in order into an empty database with LoadRowsFromProtos yields a database with the same contents, observable behaviour and hash, for database versions 2 to 5; loading rejects rows that are malformed, duplicate or out of order.", "quantifier": "every reachable database content and every chunking", "why_tests_cant": "database size and chunk sizes are unbounded", "anchors": ["enclave/db/db2.cc:RowsAsProtos", "enclave/db/db2.cc:LoadRowsFromProtos", "enclave/db/db3.cc", "enclave/db/db4.cc", "enclave/db/db5.cc"]}
{"id": "C13", "title": "Database hash depends only on contents", "statement": "Two replicas whose databases hold the same records report the same hash however they got there, and if their records differ the reported hashes differ unless two different inputs of the hash function collide.", "quantifier": "every pair of reachable database states", "why_tests_cant": "quantifies over pairs of unbounded histories", "anchors": ["enclave/db/db2.cc:DB2::Hash", "enclave/db/db2.cc:DB2::HashRow", "enclave/db/db4.cc:DB4::HashRow"]}
{"id": "C14", "title": "Validated requests never crash the enclave", "statement": "Any client log entry that ValidateClientLog accepts is executed by Run without tripping any internal check, from any reachable database state.", "quantifier": "every byte-string valued log entry and every reachable state", "why_tests_cant": "all inputs and states", "anchors": ["enclave/db/db2.cc:ValidateClientLog", "enclave/db/db2.cc:Run", "enclave/db/db3.cc", "enclave/db/db4.cc", "enclave/db/db5.cc"]}
{"id": "C15", "title": "Row size bound used for flow control is an upper bound", "statement": "No row of any reachable database serializes to more than MaxRowSerializedSize() bytes, the figure the state-transfer code uses to size its messages.", "quantifier": "every reachable row", "why_tests_cant": "needs the maximum over all field values", "anchors": ["enclave/db/db2.cc:MaxRowSerializedSize", "enclave/db/db3.cc:MaxRowSerializedSize", "enclave/db/db4.cc:MaxRowSerializedSize", "enclave/db/db5.cc:MaxRowSerializedSize"]}
{"id": "C16", "title": "Integrity tree accepts every untampered row", "statement": "After any sequence of creating, updating, moving and destroying leaves, each live leaf verifies with the hash it was last updated with, and fails to verify with any other hash.", "quantifier": "every sequence of leaf operations, any number of leaves", "why_tests_cant": "tree shapes and operation orders are unbounded", "anchors": ["enclave/merkle/merkle.cc:Leaf::Verify", "enclave/merkle/merkle.cc:Tree::CurrentWithSpace", "enclave/merkle/merkle.cc:Part::~Part"]}
{"id": "C17", "title": "Integrity tree detects tampering", "statement": "If memory holding a leaf's hash or any interior hash of its path is altered while the root hash is not, Verify of that leaf with its altered hash reports an error unless a hash collision is exhibited.", "quantifier": "every reachable tree and every alteration of stored hashes other than the root's", "why_tests_cant": "all trees and all alterations", "anchors": ["enclave/merkle/merkle.cc:Leaf::Verify", "enclave/merkle/merkle.cc:Node::ComputeCurrent"]}
{"id": "C18", "title": "Tampering stays detectable until the row is read", "statement": "An alteration of a row and of its stored leaf hash is still reported by the next read of the row even if other rows are written in between.", "quantifier": "every tree, alteration and later write", "why_tests_cant": "all schedules of writes between tampering and reading", "anchors": ["enclave/merkle/merkle.cc:Node::Update", "enclave/merkle/merkle.cc:Leaf::Update"]}
{"id": "C19", "title": "Committed log entries agree across replicas, even with rolled-back replicas", "statement": "In a replica group with fixed membership of n voters and super_majority s, if at most s replicas are ever rolled back to earlier states of themselves, then any two replicas that have committed an entry at the same index committed the same entry, however messages are delayed, duplicated, reordered or dropped and however leaders change.", "quantifier": "every schedule of deliveries, timeouts, elections, client requests and rollbacks; every n, s", "why_tests_cant": "the schedule space of a distributed protocol is infinite", "anchors": ["enclave/raft/raft.cc:MaybeAdvanceCommitIndex", "enclave/raft/raft.cc:HandleAppendRequest", "enclave/raft/raft.cc:HandleAppendResponse", "docs/svr2.tla"]}
{"id": "C20", "title": "A replica never changes what it has committed or promised", "statement": "On one replica, whatever authenticated messages arrive, in whatever order and with whatever content, the commit and promise indexes never decrease and the log entries at or below the promise index (so far as still stored) never change.", "quantifier": "every sequence of inputs to one replica, including malformed or malicious messages from group members", "why_tests_cant": "all message contents and orders", "anchors": ["enclave/raft/raft.cc:HandleAppendRequest", "enclave/raft/log.cc:CancelFrom"]}
{"id": "C21", "title": "Committed entries are delivered once, in order, without gaps", "statement": "The sequence of entries handed to the application on one replica is exactly the committed entries at consecutive indexes, each once, in order.", "quantifier": "every sequence of inputs to one replica", "why_tests_cant": "unbounded runs", "anchors": ["enclave/raft/raft.cc:TakeCommittedLog", "enclave/raft/log.cc:Append"]}
{"id": "C22", "title": "At most one vote per term, terms never go back", "statement": "A replica's term never decreases, it grants its vote to at most one candidate per term, and it only grants it to a candidate whose log is at least as up-to-date as its own.", "quantifier": "every sequence of inputs to one replica", "why_tests_cant": "unbounded runs", "anchors": ["enclave/raft/raft.cc:HandleVoteRequest", "enclave/raft/raft.cc:UpdateTerm", "enclave/raft/raft.cc:ElectionTimeout"]}
{"id": "C23", "title": "At most one leader per term", "statement": "With fixed membership and no more than super_majority rolled-back replicas, no two different replicas are ever leaders in the same term.", "quantifier": "every network schedule", "why_tests_cant": "infinite schedule space", "anchors": ["enclave/raft/raft.cc:MaybeBecomeLeader", "enclave/raft/raft.cc:HandleVoteRequest"]}
{"id": "C24", "title": "Equal hash chain values imply equal log prefixes", "statement": "If two replicas (or a replica and a message) carry the same hash-chain value at an index, then their entries at that and every earlier stored index are identical, unless two different hash inputs collide.", "quantifier": "every pair of reachable logs", "why_tests_cant": "all logs", "anchors": ["enclave/raft/raft.cc:NextHash", "enclave/raft/raft.cc:CheckLogHash"]}
{"id": "C25", "title": "Quorums overlap by more than the rollback tolerance", "statement": "Any two quorums of one membership with super_majority s < n share more than s voters, and quorums of two memberships that differ by one voter share at least one voter more than s when neither membership is at or below s voters.", "quantifier": "every membership, every s", "why_tests_cant": "arithmetic over all sizes", "anchors": ["enclave/raft/raft.cc:quorum_size", "enclave/raft/membership.cc:ValidProgressionForLeader"]}
{"id": "C26", "title": "Only safe single-step membership changes are accepted", "statement": "A leader appends a membership change only if it changes exactly one role of one peer (or removes one voting peer outright), never empties the group, never demotes or removes the leader itself and never drops the voters to super_majority or below; the resulting voters are members of the group.", "quantifier": "every pair of memberships", "why_tests_cant": "all memberships", "anchors": ["enclave/raft/membership.cc:ValidProgressionForLeader"]}
{"id": "C27", "title": "Committed entries agree across membership changes", "statement": "Replicas that commit an entry at the same index commit the same entry even when the group membership is changed, one step at a time, while the group runs.", "quantifier": "every schedule with membership changes", "why_tests_cant": "infinite schedule space", "anchors": ["enclave/raft/raft.cc:LogRequest", "enclave/raft/raft.cc:HandleMembershipChange", "enclave/core/core.cc:HandleRaftMembershipChange"]}
{"id": "C28", "title": "A new leader holds every committed entry", "statement": "Whenever a replica becomes leader, its log contains every entry that any replica committed in an earlier term.", "quantifier": "every network schedule", "why_tests_cant": "infinite schedule space", "anchors": ["enclave/raft/raft.cc:MaybeAdvanceCommitIndex", "enclave/raft/raft.cc:HandleVoteRequest"]}
{"id": "C29", "title": "Log storage is bounded and accounted exactly", "statement": "The stored log never exceeds its configured byte budget, an append fails only if the stored entries after discarding already-applied ones do not fit, no unapplied entry is ever discarded, and lookups by index return exactly the entries appended.", "quantifier": "every sequence of appends, truncations and cancellations", "why_tests_cant": "unbounded operation sequences", "anchors": ["enclave/raft/log.cc:Append", "enclave/raft/log.cc:CancelFrom", "enclave/raft/log.cc:RemoveOldestLogOlderThan"]}
{"id": "C30", "title": "Client answers correspond to committed operations", "statement": "A client's request is answered with a success at most once, and only after exactly the log entry created for it has been committed and applied; if leadership changes and a different entry is committed at its place the client gets an error.", "quantifier": "every interleaving of requests, commits and leadership changes", "why_tests_cant": "unbounded interleavings", "anchors": ["enclave/core/core.cc:HandleLogTransactionsForRaftLog", "enclave/core/core.cc:ClientLogTransaction", "enclave/core/core.cc:RaftWriteLogTransaction"]}
{"id": "C31", "title": "A joining replica ends up with the group's database", "statement": "When a joining replica finishes loading state from a peer while clients keep writing, its database equals the peer's database at the joining replica's log position, whatever the chunk sizes and the interleaving of writes.", "quantifier": "every interleaving of transfer steps and committed writes, every database", "why_tests_cant": "unbounded interleavings", "anchors": ["enclave/core/core.cc:SendNextReplicationState", "enclave/core/core.cc:HandleReplicateStatePush", "enclave/core/core.cc:MaybeApplyLogToReplicatingDatabase"]}
{"id": "C32", "title": "Automatic healing proposes only safe changes", "statement": "The membership the leader proposes on its own initiative differs from the current one by promoting, demoting or removing one unresponsive/available peer, never touches the leader, and keeps the number of voters within the configured minimum and maximum.", "quantifier": "every membership, every last-seen record, every configuration", "why_tests_cant": "all memberships and timings", "anchors": ["enclave/core/core.cc:NextReplicaGroup"]}
{"id": "C33", "title": "Group time is robust to faulty clocks", "statement": "The group time lies between the smallest and largest clock of any majority of the participating replicas' clocks: replicas with wrong clocks cannot move it outside the range of the correct ones as long as they are a minority, and it is always one of the reported clocks.", "quantifier": "every set of clocks", "why_tests_cant": "all multisets of clocks", "anchors": ["enclave/groupclock/groupclock.cc:GetTime"]}
{"id": "C34", "title": "Timeouts fire exactly once, on time, unless cancelled", "statement": "A timeout set for d ticks from now runs exactly once, at the d-th following tick (1st if d is not positive), if it is not cancelled before that tick, and never if it is.", "quantifier": "every interleaving of set, cancel and tick calls", "why_tests_cant": "unbounded interleavings", "anchors": ["enclave/timeout/timeout.cc"]}
{"id": "C35", "title": "Minimum security requirements only tighten", "statement": "Once accepted, a minimum (for example of firmware version) can never be lowered or removed by any later update; a peer or attestation rejected under one set of limits is rejected under every later one.", "quantifier": "every sequence of updates and all values", "why_tests_cant": "unbounded update histories", "anchors": ["enclave/minimums/minimums.cc:UpdateLimits", "enclave/minimums/minimums.cc:CheckValuesAgainstSet"]}
{"id": "C36", "title": "Minimums apply to every required value", "statement": "A set of attested values is accepted only if every value that a current minimum constrains is present and at least the minimum.", "quantifier": "every limit set and value set", "why_tests_cant": "all sets", "anchors": ["enclave/minimums/minimums.cc:CheckValuesAgainstSet"]}
{"id": "C37", "title": "Enclaves only exchange data with attested peers", "statement": "A message from a peer is handed to the application only after the peer completed the key exchange with a key matching its peer id, presented valid attestation evidence for that key no older than the allowed age, and met the current minimums at that time; a reset returns the link to the unauthenticated state.", "quantifier": "every sequence of peer messages, resets and clock updates", "why_tests_cant": "all message sequences, including adversarial ones", "anchors": ["enclave/peers/peers.cc:Peer::Recv", "enclave/peers/peers.cc:Peer::FinishConnection", "enclave/peers/peers.cc:MaybeDisconnectIfAttestationTooOld"]}
{"id": "C38", "title": "Secure channel messages are intact, complete and in order", "statement": "Messages sent over an enclave-to-enclave channel arrive unmodified and in order or the channel reports an error: any altered, truncated, extended, replayed, reordered or injected ciphertext is rejected.", "quantifier": "every message length and every alteration by the network", "why_tests_cant": "all lengths and alterations", "anchors": ["enclave/noise/noise.cc:Encrypt", "enclave/noise/noise.cc:Decrypt", "enclave/peers/peers.cc:Send", "enclave/peers/peers.cc:Recv"]}
{"id": "C39", "title": "Host/enclave socket framing preserves messages", "statement": "Whatever way the socket splits the byte stream, the reader obtains exactly the sequence of messages written, in order, and oversized length prefixes are rejected.", "quantifier": "every message sequence and every fragmentation", "why_tests_cant": "unbounded sequences and fragmentations", "anchors": ["enclave/socketwrap/socket.cc:ReadPB", "enclave/socketwrap/socket.cc:WritePB"]}
{"id": "C40", "title": "Concurrent writers never lose or interleave messages", "statement": "With any number of threads calling WritePB while the writer thread drains the double buffer, the bytes sent are the concatenation of whole messages in the order of their WritePB calls, and a completed flush implies everything queued before it was sent.", "quantifier": "every interleaving of WritePB, flush and writer steps", "why_tests_cant": "unbounded thread interleavings", "anchors": ["enclave/socketwrap/socket.cc:WriteQueue"]}
{"id": "C41", "title": "Work queue is bounded FIFO", "statement": "Items come out of the queue in the order they went in, none lost or duplicated, the queue never exceeds its limit, and a finished flush means every item queued before has been popped.", "quantifier": "every interleaving of push, pop and flush", "why_tests_cant": "unbounded interleavings", "anchors": ["enclave/queue/queue.h"]}
{"id": "C42", "title": "Text and integer encodings round-trip", "statement": "Hex, base64 (both alphabets, with and without padding) and the big/little-endian integer codecs decode every encoded value back to itself, and the hex/base64 decoders accept only canonical alphabet characters.", "quantifier": "every byte string / integer", "why_tests_cant": "infinite input space", "anchors": ["enclave/util/hex.cc", "enclave/util/base64.cc", "enclave/util/endian.h"]}
{"id": "C43", "title": "Secret comparison is exact equality", "statement": "The comparison used for PINs and hashes answers true exactly for equal byte strings, and its sequence of memory accesses depends only on the length.", "quantifier": "every pair of byte strings", "why_tests_cant": "all inputs", "anchors": ["enclave/util/constant.h"]}
{"id": "C44", "title": "Base64 decoding never reads outside its tables", "statement": "Decoding any input string only accesses the 256-entry decoding table within bounds.", "quantifier": "every input byte string", "why_tests_cant": "all inputs", "anchors": ["enclave/util/base64.cc:B64DecodeInline"]}
{"id": "C45", "title": "Connection ids are unique and never reused", "statement": "Every client accepted during the life of the enclave gets an id different from all earlier ones, and messages for an id reach only the client with that id until it is closed.", "quantifier": "every sequence of client opens and closes (below 2^64)", "why_tests_cant": "unbounded sequences", "anchors": ["enclave/client/client.cc:ClientManager"]}
{"id": "C46", "title": "Enclave-to-enclave transactions are answered once by the right peer", "statement": "The callback of a request sent to a peer runs exactly once: with a response from that very peer, a timeout or a peer reset; responses from other peers or repeated responses are ignored.", "quantifier": "every sequence of sends, responses, timeouts and resets", "why_tests_cant": "unbounded interleavings", "anchors": ["enclave/core/core.cc:SendE2ETransaction", "enclave/core/core.cc:HandleE2E", "enclave/core/core.cc:ResetPeer"]}
{"id": "C47", "title": "Peer ids parse strictly and order totally", "statement": "Only 32-byte non-zero strings are valid peer ids, parsing and printing round-trip, and comparison is a total order consistent with equality.", "quantifier": "every byte string", "why_tests_cant": "all inputs", "anchors": ["enclave/peerid/peerid.cc"]}
{"id": "C48", "title": "Host transport never duplicates or reorders peer messages", "statement": "However connections between hosts drop and are re-established, the messages of one session delivered to the receiving enclave are a prefix of those sent, in order, each at most once.", "quantifier": "every schedule of sends, connection drops, partial deliveries and acknowledgements", "why_tests_cant": "unbounded schedules", "anchors": ["host/peer/client.go:handleConnection", "host/peer/server.go:updateSeqno", "host/peer/sequence_number.go"]}
{"id": "C49", "title": "Host transport does not lose messages silently", "statement": "A message that a host acknowledged as sent on a session is delivered to the receiving enclave, or the session is reset; a reconnect never makes the receiver silently drop later messages.", "quantifier": "every schedule of sends, drops and reconnects", "why_tests_cant": "unbounded schedules", "anchors": ["host/peer/client.go:handleConnection", "host/peer/client.go:processAck", "host/peer/server.go:updateSeqno"]}
{"id": "C50", "title": "Host framing round-trips and is bounded", "statement": "A length-prefixed frame written by one host is read back identically by another for any payload up to the maximum, and longer length prefixes are rejected before allocating.", "quantifier": "every payload and every prefix", "why_tests_cant": "all payloads", "anchors": ["host/peer/serialize.go:writeFramed", "host/peer/serialize.go:readFramedRaw"]}
{"id": "C51", "title": "Credentials are accepted only within their window and for their user", "statement": "A password is accepted for a user exactly when it parses as timestamp:hex, the timestamp is within the validity window of now, and the hex is the MAC prefix of that user and timestamp; passwords issued by PassFor are accepted until they expire.", "quantifier": "every user name, password and time", "why_tests_cant": "all strings and times", "anchors": ["host/auth/auth.go:Check", "host/auth/auth.go:PassFor"]}
{"id": "C52", "title": "Host requests get their own reply, once", "statement": "Each request sent through the dispatcher receives at most one reply, namely the enclave's response with the request's id; concurrent requests never receive each other's replies.", "quantifier": "every interleaving of requests and enclave responses", "why_tests_cant": "unbounded interleavings", "anchors": ["host/dispatch/dispatcher.go", "host/util/txid.go"]}
{"id": "C53", "title": "Only well-formed group configurations run", "statement": "A replica group is created or joined only with a configuration satisfying the limits (at least one voter, minimum voters not above maximum voters, a positive attestation timeout, a known database version) and agreeing with the configuration the replica was started with, creation happens only from the initial state and at most once, and a running group's configuration never changes.", "quantifier": "every configuration and request sequence", "why_tests_cant": "all configurations", "anchors": ["enclave/core/core.cc:ValidateRaftGroupConfig", "enclave/core/core.cc:HandleCreateNewRaftGroupRequest", "enclave/core/core.cc:JoinRaftFromFirstPeer"]}
{"id": "C54", "title": "Downloads use the last uploaded key", "statement": "In the DB5 store a Download of an intact account answers the keyed hash of the sent value under the data of the account's most recent Upload; an OK answer is never anything else, and after a Purge there is no answer until the next Upload.", "quantifier": "every history of requests and every account", "why_tests_cant": "histories are unbounded", "anchors": ["enclave/db/db5.cc:Upload", "enclave/db/db5.cc:Download", "enclave/db/db5.cc:Purge"]}
{"id": "C55", "title": "Accepted minimum updates apply everywhere", "statement": "An update of the minimums that a replica has accepted can be applied by every replica when it is committed; no sequence of accepted update requests makes a replica abort.", "quantifier": "every sequence of update requests and commits", "why_tests_cant": "the order in which requests and commits interleave", "anchors": ["enclave/core/core.cc:HandleUpdateMinimums", "enclave/core/core.cc:HandleRaftMinimumsChange", "enclave/minimums/minimums.cc:UpdateLimits"]}
{"id": "C56", "title": "Client requests are whole", "statement": "Every request the enclave accepts from a client connection is a request that client sent, whole, in the order sent and each at most once, whatever the network does with the ciphertext.", "quantifier": "every message length and every alteration, loss, repetition and reordering of what the client sent", "why_tests_cant": "all lengths and all network behaviour", "anchors": ["enclave/client/client.cc:DecryptRequest", "enclave/client/client.cc:EncryptResponse", "enclave/noise/noise.cc:Decrypt"]}
{"id": "C57", "title": "A client is shown evidence for the key it talks to", "statement": "The handshake start handed to a new client carries the attestation evidence in force when the connection was opened, and that evidence is for the key the connection uses, however attestation refreshes, key rotations and new connections interleave.", "quantifier": "every interleaving of new connections, refreshes and key rotations", "why_tests_cant": "races between threads", "anchors": ["enclave/client/client.cc:NewClient", "enclave/client/client.cc:RefreshAttestation", "enclave/client/client.cc:RotateKeyAndRefreshAttestation"]}
{"id": "C58", "title": "A rotated client key is never used again", "statement": "After a rotation of the client key has taken effect, every connection opened later uses that key or a newer one.", "quantifier": "every interleaving of new connections, refreshes and key rotations", "why_tests_cant": "races between threads", "anchors": ["enclave/client/client.cc:RefreshAttestation", "enclave/client/client.cc:RotateKeyAndRefreshAttestation", "enclave/core/core.cc:HandleRefreshAttestation"]}
{"id": "C59", "title": "Abandoned attempts to join leave no trace", "statement": "A replica counts as loaded only when the transfer of state it last asked for has been answered; answers to attempts to join that were abandoned for a newer one change nothing and never stop the replica.", "quantifier": "every sequence of requests to join, connections and answers of peers", "why_tests_cant": "the order in which answers arrive", "anchors": ["enclave/core/core.cc:HandleJoinRaft", "enclave/core/core.cc:JoinRaftFromFirstPeer", "enclave/core/core.cc:RequestRaftReplication", "enclave/core/core.cc:PromoteRaftToLoaded"]}
{"id": "C60", "title": "Every applied request is answered", "statement": "Every request that was accepted and whose entry the replica has applied is answered by the replica, whether the replica put it into the log itself or forwarded it to the leader.", "quantifier": "every order in which answers of the leader and committed entries arrive", "why_tests_cant": "races between the leader's answer and the commit", "anchors": ["enclave/core/core.cc:RaftWriteLogTransaction", "enclave/core/core.cc:AddLogTransaction", "enclave/core/core.cc:HandleLogTransactionsForRaftLog"]}
{"id": "C61", "title": "TPM quotes are read as what they say", "statement": "A TPM quote, its signature and its list of PCRs are accepted exactly if they have the one accepted form of the TPM specification; nonce, key and digest taken from them are the ones they carry; no bytes make the reader leave the buffer.", "quantifier": "every byte string", "why_tests_cant": "all byte strings", "anchors": ["enclave/attestation/tpm2/tpm2.cc:Report::FromString", "enclave/attestation/tpm2/tpm2.cc:PCRsFromString", "enclave/attestation/tpm2/tpm2.cc:Signature::FromString", "enclave/attestation/tpm2/tpm2.cc:VerifyPCRs"]}
{"id": "C62", "title": "The certificate table is read inside its buffer", "statement": "Whatever the hypervisor puts into the table of SNP certificates, the enclave reads only bytes of that buffer, takes for each kind of certificate the bytes the table names, and refuses a table without end or with a certificate outside of the buffer.", "quantifier": "every content of the buffer", "why_tests_cant": "all buffers, and integer wrap-around", "anchors": ["enclave/attestation/sev/sev.cc:CertificatesToEndorsements", "enclave/attestation/gcpsnp/gcpsnp.cc:SnpReport"]}
{"id": "C63", "title": "Peers on Azure and Google Cloud are who their evidence says", "statement": "A replica accepts a peer's evidence exactly if the cloud's root vouches for the TPM's attestation key, AMD vouches for the machine, the machine's report is over data that name that key, the key signed the machine's PCRs and the hash of the peer's public key and settings, and the PCRs that identify software equal the replica's own. Evidence of one machine cannot be used for another public key or attestation key without a hash collision.", "quantifier": "all evidence, certificates, times and PCRs", "why_tests_cant": "all byte strings; adversarial recombination of evidence", "anchors": ["enclave/attestation/tpm2snp/tpm2snp.cc:CompleteVerification", "enclave/attestation/tpm2snp/tpm2snp.cc:VerifyAKCert", "enclave/attestation/tpm2snp/tpm2snp.cc:VerifyTPM2", "enclave/attestation/tpm2snp/tpm2snp.cc:CheckRemotePCRs"]}
{"id": "C64", "title": "Guests that may be debugged or migrated are refused", "statement": "A peer whose SNP report allows debugging or a migration agent is never accepted.", "quantifier": "all evidence", "why_tests_cant": "all reports", "anchors": ["enclave/attestation/sev/sev.cc:ValidateReport", "enclave/attestation/sev/sev.cc:AllowRemote", "enclave/attestation/tpm2snp/tpm2snp.cc:CompleteVerification"]}
{"id": "C65", "title": "Minimum versions hold for the machine, not for the claim", "statement": "For each firmware version in the SNP report, the value checked against the group's minimums is the report's, or the peer's own claim if that is lower; a peer that passes the limits runs on a platform that meets them.", "quantifier": "all evidence, claims and limits", "why_tests_cant": "all combinations of claims and reports", "anchors": ["enclave/minimums/minimums.cc:CombineValues", "enclave/attestation/sev/sev.cc:MinimumsFromReport", "enclave/attestation/tpm2snp/tpm2snp.cc:CompleteVerification"]}
{"id": "C66", "title": "No evidence stops the verifier", "statement": "Whatever evidence and endorsements a peer sends, the replica answers with success or an error and goes on.", "quantifier": "all evidence and endorsements", "why_tests_cant": "all byte strings and certificates", "anchors": ["enclave/attestation/tpm2snp/tpm2snp.cc:CompleteVerification", "enclave/attestation/sev/sev.cc:ReportFromVerifiedBuffer", "enclave/util/base64.cc:B64DecodeInline"]}
{"id": "C67", "title": "Peers on AWS Nitro are who their evidence says", "statement": "A replica accepts a peer's evidence exactly if it is a COSE_Sign1 structure whose payload is an attestation document with the members and sizes that Amazon prescribes, Amazon's root vouches (give or take an hour) for a certificate whose key signed header and document, and the document's PCRs 0, 1 and 2 are the replica's own; the accepted public key and settings are the document's. A signature serves for one document only.", "quantifier": "all evidence, certificates, times and PCRs", "why_tests_cant": "all byte strings; adversarial recombination of evidence", "anchors": ["enclave/env/nsm/nsm.cc:Attest", "enclave/env/nsm/nsm.cc:PCRsMatch", "enclave/attestation/nitro/nitro.cc:CoseSign1", "enclave/attestation/nitro/nitro.cc:AttestationDoc", "enclave/attestation/nitro/nitro.cc:Verify"]}
{"id": "C68", "title": "Nitro evidence of another form is refused", "statement": "Evidence whose header does not name ES384 as its algorithm is refused, and so is a document with PCRs of numbers above 31 or one that does not list PCR 0, 1 or 2.", "quantifier": "all evidence", "why_tests_cant": "all byte strings", "anchors": ["enclave/attestation/nitro/nitro.cc:CoseSign1::Valid", "enclave/attestation/nitro/nitro.cc:AttestationDoc::ParseFromBytes"]}
{"id": "C69", "title": "No Nitro evidence stops the verifier", "statement": "Whatever bytes a peer sends as Nitro evidence, the replica answers with success or an error and goes on.", "quantifier": "all evidence", "why_tests_cant": "all byte strings", "anchors": ["enclave/attestation/nitro/nitro.cc:CborByteString", "enclave/attestation/nitro/nitro.cc:CborTextString", "enclave/env/nsm/nsm.cc:Attest"]}
{"id": "C70", "title": "A group of replicas acts as one machine with one database", "statement": "Whichever replicas clients ask, and whoever leads: there is one list of requests such that every replica runs a prefix of it, sees the effects that one machine running the list would see, and has that machine's database; the list holds only requests that were made; a client gets a good answer only to a request in the list, and the answer is made from the effect it has there. This holds although the network loses, duplicates, delays and reorders all messages and although the host puts up to super_majority replicas back to earlier states. A replica put back still only says what has an effect in the list.", "quantifier": "all databases, groups, changes between memberships whose quorums overlap, schedules, requests, forwarded requests and answers, rollbacks of at most super_majority replicas", "why_tests_cant": "unboundedly many interleavings of elections, replication, forwarding and rollback at several machines", "anchors": ["enclave/core/core.cc:RaftWriteLogTransaction", "enclave/core/core.cc:HandleRaftWrite", "enclave/core/core.cc:RaftHandleCommittedLogs", "enclave/core/core.cc:HandleLogTransactionsForRaftLog", "enclave/core/core.cc:RaftApplyLogToDatabase", "enclave/raft/raft.cc:Receive"]}
{"id": "C71", "title": "The limit on guesses of a PIN holds for the group", "statement": "After a backup with t tries, and until the next backup of the account, fewer than t of the guesses that the whole group runs are found wrong, whichever replicas they are sent to and although the host puts up to super_majority replicas back to earlier states again and again. What all replicas of the group answer is what one store answers that runs one list of requests; data is only found for the PIN of the account's last backup in that list.", "quantifier": "all groups, changes between memberships whose quorums overlap, schedules, requests, rollbacks of at most super_majority replicas", "why_tests_cant": "unboundedly many interleavings; an adversarial host", "anchors": ["enclave/db/db2.cc:Restore", "enclave/core/core.cc:RaftApplyLogToDatabase", "enclave/raft/raft.cc:Receive", "enclave/raft/membership.cc:quorum_size"]}
{"id": "C72", "title": "A group answers in an order that fits time", "statement": "Each good answer belongs to one entry of the group's one list of requests; that entry is the request itself, no two requests are answered by the same entry, wherever they were made, and no request has two. A request made at any replica after another got a good answer, or after any replica ran an entry, has its entry later in the list: its answer tells of all that was answered before. This holds on a network that loses, duplicates, delays and reorders, with up to super_majority replicas put back to earlier states, as long as none of those ever led.", "quantifier": "all databases, groups, changes between memberships whose quorums overlap, schedules, requests at any replicas, rollbacks of at most super_majority replicas that never led", "why_tests_cant": "unboundedly many interleavings of elections, replication and forwarding; order across machines", "anchors": ["enclave/core/core.cc:RaftWriteLogTransaction", "enclave/core/core.cc:ClientLogTransaction", "enclave/core/core.cc:HandleRaftWrite", "enclave/core/core.cc:HandleLogTransactionsForRaftLog", "enclave/raft/raft.cc:ClientRequestInternal", "enclave/raft/raft.cc:Receive"]}
{"id": "C73", "title": "An entry's index and term tell the whole log up to it", "statement": "If any two logs that replicas of a group ever had hold an entry of the same term at the same index, the entry is the same and so is all before it. A replica that leads has every entry of its term that any replica ever had. This holds with up to super_majority replicas put back to earlier states, as long as none of those ever led.", "quantifier": "all groups, changes between memberships whose quorums overlap, schedules, requests, rollbacks of at most super_majority replicas that never led", "why_tests_cant": "unboundedly many interleavings of elections, replication and rollback", "anchors": ["enclave/raft/raft.cc:HandleAppendRequest", "enclave/raft/raft.cc:ClientRequestInternal", "enclave/raft/log.cc:Append"]}
{"id": "C74", "title": "Hosts create at most one group and all get into it", "statement": "Any number of hosts that start at one empty Redis, in any interleaving and dying at any point, ask their enclaves at most once for a new group; all hosts whose enclaves have got into a group, that say they are members or that Redis shows as members are in that one group. A host joins only through another host at another address whose enclave had got in before; of the members it has found it takes one that does not lead if there is one, and among such the one that was written last.", "quantifier": "all numbers of hosts, addresses, interleavings, expiries, deaths, lost answers", "why_tests_cant": "unboundedly many interleavings of hosts and of expiry", "anchors": ["host/peer/peerdb/peerdb.go:FindRaftMember", "host/peer/peerdb/peerdb.go:acquireCreationLock", "host/peer/peerdb/peerdb.go:betterThan", "host/raftmanager/raftmanager.go:CreateOrJoin", "host/service/service.go:Start"]}
{"id": "C75", "title": "A group can still be formed after a host fails", "statement": "Whatever has happened before, a host that starts can get into a group: it joins one that is there, or creates one.", "quantifier": "all histories of all hosts, including deaths at any point and lost answers of Redis", "why_tests_cant": "crash at every point of every host", "anchors": ["host/peer/peerdb/peerdb.go:acquireCreationLock", "host/peer/peerdb/peerdb.go:FindRaftMember", "host/raftmanager/raftmanager.go:CreateOrJoin"]}
{"id": "C76", "title": "A request to be tried again was not run", "statement": "A client whose connection is closed with 4014, and more generally a request answered with 'transaction cancelled' or 'leader unknown', can be sent again safely: no replica of the group has run the request or ever will. A request that was made once is run at one place of the group's list of requests at most. This holds on a network that loses, delays and reorders (each forwarded request reaches a leader at most once), with up to super_majority replicas, not the one that was asked, put back to earlier states.", "quantifier": "all databases, groups, changes between memberships whose quorums overlap, schedules, requests at any replicas, leader changes, rollbacks of at most super_majority replicas other than the asked one", "why_tests_cant": "an outcome is reported before, while or after leaders change; 'never will be run' is about all later executions", "anchors": ["host/web/handlers/websocket.go:closeMessage", "enclave/core/core.cc:ClientLogTransaction", "enclave/core/core.cc:RaftWriteLogTransaction", "enclave/core/core.cc:HandleLogTransactionsForRaftLog", "enclave/raft/raft.cc:ClientRequestInternal"]}
{"id": "C77", "title": "The host acts for the user it has checked, and relays what it is given", "statement": "The host's two client endpoints ask the enclave for nobody but the user whose credentials were just found good: the id is the 16 bytes that the user's name spells in hexadecimal, and messages go only to the client that the enclave made for that id on that connection. Requests with wrong credentials, malformed names or over the rate limit never reach the enclave. A connection's messages reach the enclave as they were sent, in order, none over 128 KiB; the client gets the handshake and each reply in order, and the next message is taken only after the reply to the former was sent. When a connection ends, in whatever way, the enclave is told exactly once. The close code tells how it ended: 1000 only if the enclave had finished; 4014 only for 'cancelled' or 'leader unknown' in reply to the last message.", "quantifier": "all users, passwords, messages, reads and writes that fail, and all behaviours of enclave, client, authenticator and rate limiter", "why_tests_cant": "every point at which any of four parties can fail or misbehave", "anchors": ["host/web/handlers/websocket.go:ServeHTTP", "host/web/handlers/websocket.go:handleClientWebsocket", "host/web/handlers/websocket.go:closeMessage", "host/web/handlers/delete_backup.go:ServeHTTP", "host/web/middleware/auth.go:ServeHTTP", "host/web/middleware/rate.go:ServeHTTP", "host/service/service.go:Start"]}
{"id": "C78", "title": "A user whose DELETE is answered with 200 has no backup any more", "statement": "When HTTP DELETE /v1/delete is answered with 200, the user's backup is gone: each replica that has come as far as the request has no row for the user, and what is asked later finds nothing, until the user makes a new backup. This should hold for each store that the host can serve (SVR2, SVR3, SVR4, SVR5).", "quantifier": "all users, groups, changes between memberships whose quorums overlap, schedules, requests at any replica, rollbacks of at most super_majority replicas other than the asked one, all four stores", "why_tests_cant": "'gone' is about every replica and every later state", "anchors": ["host/web/handlers/delete_backup.go:ServeHTTP", "enclave/core/core.cc:HandleHostDatabaseRequest", "enclave/core/core.cc:RaftApplyLogToDatabase", "enclave/db/db2.cc:Delete", "enclave/db/db3.cc:Remove", "enclave/db/db4.cc:Remove", "enclave/db/db5.cc:Purge"]}
{"id": "C79", "title": "A request is applied as it was sent", "statement": "What a client's request says is what every replica's database runs: the message the client writes, the log entry made from it and what each replica reads from the entry hold the same request, for the client's own id. Bytes get into the log if and only if they are a request that the database accepts.", "quantifier": "all requests of the four protocols, all byte strings a client can send, all ids", "why_tests_cant": "all byte strings, with repeated, merged, unknown and missing fields", "anchors": ["shared/proto/client.proto", "shared/proto/client3.proto", "shared/proto/client4.proto", "shared/proto/client5.proto", "enclave/proto/clientlog.proto", "enclave/core/core.cc:HandleExistingClient", "enclave/db/db2.cc:LogFromRequest", "enclave/db/db3.cc:LogFromRequest", "enclave/db/db4.cc:LogFromRequest", "enclave/db/db5.cc:LogFromRequest"]}
{"id": "C80", "title": "Threads of the enclave never wait for each other for ever", "statement": "The host may hand messages to the enclave on several threads at once, and each message takes locks (of the group, of the calls to other replicas, of the log, of each connection, of the timers and so on), sometimes while others are held, and runs callbacks of earlier messages. Whatever messages arrive: there is never a set of threads each of which waits for a lock that one of them holds (a thread that waits for a lock it holds itself included). So while any message is being worked on some thread can go on; and if no new messages come every message is finished after finitely many steps, with no lock left held.", "quantifier": "all numbers of threads, all sequences of messages of all kinds with any contents, all interleavings of the threads' steps, all outcomes of the branches the handlers take", "why_tests_cant": "A deadlock needs a particular interleaving of particular handlers; tests run one handler at a time or sample a few schedules, and absence of deadlock is a statement about all of them.", "anchors": ["enclave/core/core.cc: Receive, HandleHostToEnclave, HandlePeerMessage, HandleE2E, HandleTimerTick, ResetPeer, SendE2ETransaction, SendNextReplicationState, RaftHandleCommittedLogs, HandleLogTransactionsForRaftLog", "enclave/peers/peers.cc: PeerManager, Peer", "enclave/client/client.cc: ClientManager, Client", "enclave/timeout/timeout.cc", "enclave/minimums/minimums.cc", "enclave/groupclock/groupclock.cc", "enclave/context/context.h: ACQUIRE_LOCK", "enclave/util/mutex.h"]}
{"id": "C81", "title": "Each request of the host is answered once", "statement": "Each request that the host gives the enclave (for clients, for the group, for peers, for the limits, for deletion, for its configuration, status and metrics) is answered with the request's number exactly once: never twice, never with a number that was not asked, and while it has not been answered exactly one thing is waited for, a replica's answer or an entry of the log, whose arrival, time limit or loss brings the answer.", "quantifier": "all sequences of requests with different numbers, answers of replicas, timeouts, connections, resets, applied entries and changes of membership, with all outcomes of the tests the handlers make", "why_tests_cant": "The number travels through callbacks that wait in several tables and are run by whichever of an answer, a timeout, a reset or a commit comes first; that exactly one of them ever answers concerns all orders of these.", "anchors": ["enclave/core/core.cc: HandleHostToEnclave, HandleExistingClient, HandleHostDatabaseRequest, HandleUpdateMinimums, HandleRelinquishLeadership, HandleJoinRaft, JoinRaftFromFirstPeer, RequestRaftReplication, RaftRequestMembership, RaftWriteLogTransaction, ClientLogTransaction, AddLogTransaction, SendE2ETransaction, ResetPeer, HandleRaftMembershipChange, HandleLogTransactionsForRaftLog, ReplyWithError", "host/dispatch/dispatcher.go: SendTransaction, forwardToHost"]}
{"id": "C82", "title": "Peers on SGX are who their evidence says", "statement": "On SGX, a peer's evidence is accepted exactly if Open Enclave's verifier accepts it as of the current time and says it comes from an enclave with the own MRENCLAVE, the TCB info states an evaluation number and the custom claims start with a public key of 32 bytes; what is learnt is that key and that number, and a group's limit on the number holds for it. The evidence an enclave makes of its key is accepted by enclaves of the same build and yields that key. Enclaves that are not simulated take no simulated evidence and do not start without knowing their own MRENCLAVE.", "quantifier": "all evidence and endorsements, times, limits, and whatever the verifier, the JSON parser and the reader of custom claims answer", "why_tests_cant": "A test has a few pieces of evidence, usually simulated; which bytes are accepted, whoever made them, is a statement about all of them.", "anchors": ["enclave/env/sgx/sgx.cc: Environment, Evidence, Attest, GetMRENCLAVE, ValidateStandardClaims, SecsToOEDatetime", "enclave/attestation/oe/attestation.cc: FindClaim, ReadKeyFromVerifiedClaims, VerifyAndReadClaims, TcbEvaluationDataNumber"]}
{"id": "C83", "title": "SGX evidence of another form is refused, and none stops the verifier", "statement": "Evidence whose claims do not have the expected form (custom claims, TCB info, evaluation number) is refused with an error, at any time that the host may set; no evidence stops the enclave that checks it.", "quantifier": "all evidence and endorsements that Open Enclave's verifier accepts, all times, all contents of the custom claims and of the TCB info", "why_tests_cant": "Evidence of another form is not what any honest enclave makes, so tests do not have it.", "anchors": ["enclave/env/sgx/sgx.cc: Attest, SecsToOEDatetime", "enclave/attestation/oe/attestation.cc: ReadKeyFromVerifiedClaims, TcbEvaluationDataNumber"]}
{"id": "C84", "title": "The host and its enclave never block each other for ever", "statement": "Goroutines of the host call the enclave through a fixed number of workers; a call puts out any number of messages into a channel of limited size and waits while it is full; one goroutine takes the messages out and hands those for other replicas to their senders. At no time does every one of them wait for another, so that nothing but new requests can happen and none is ever served: whoever waits goes on once the others have.", "quantifier": "all numbers of workers, all sizes of the channel, all histories: messages of the enclave of any number and kind, senders that overflow, break or are abandoned at any time, requests and ticks at any time", "why_tests_cant": "A block needs the channel to fill up while a sender's queue overflows; which goroutine runs when decides, and tests with few messages never fill the channel.", "anchors": ["host/dispatch/dispatcher.go: Send, ResetPeer, forwardToEnclaveLoop, forwardToHostLoop, timerTickLoop", "host/peer/client.go: Send, getOrCreateSender, queueMessage", "host/enclave/sgx.go: SendMessage, receiveMessage"]}
{"id": "C85", "title": "A call over the socket runs once and returns its own status", "statement": "A message given to an enclave behind a socket is run by it at most once. If the call returns a status, then it was run exactly once and that is the status of this run, no matter how many calls are under way; all that the run put out has been put into the host's channel of outputs before; outputs come out of the channel in the order in which they were put out, without gaps. Every call returns.", "quantifier": "all numbers of threads on both sides, all histories: calls at any time, runs of any length with any outputs and status, failures to write, and loss of the connection at any time", "why_tests_cant": "Calls are matched with answers by number under concurrency and failures; a test cannot try all schedules of both programs and all moments at which the connection breaks.", "anchors": ["host/enclave/socket.go: SendMessage, send, readNextOutput, receivedResponse, readOutputs", "enclave/socketmain/socketmain.cc: RunServerThread", "enclave/env/socket/socket.cc: SendMessage, SendOutboundMessage"]}
{"id": "C86", "title": "An enclave is started once, and completely, before it is given messages", "statement": "Whatever calls the host makes of an SGX enclave, in whatever order and at the same time: at most one start succeeds, and it returns the peer id of the enclave's one core; a message is refused unless a start has succeeded, and is otherwise given to that core, in an environment that is simulated exactly if the core's configuration says so; core and environment are never replaced while they are in use. After a start that failed the enclave can be started again. The host's own start returns an error if the enclave cannot be started.", "quantifier": "all sequences and interleavings of starts and messages from any number of threads, all results of parsing the configuration and of creating the core; all failures of the host's start", "why_tests_cant": "The host is not trusted and may call concurrently; which of two starts comes first, and when a message arrives, decides.", "anchors": ["enclave/ecalls/ecalls.cc: svr2_init, svr2_input_message", "enclave/env/sgx/sgx.cc: Init", "host/enclave/sgx.go: Init, Close"]}
{"id": "C87", "title": "A replica acts by the membership that its log says", "statement": "At all times a replica counts votes and quorums, and decides whether it votes and may lead, by the membership set by the last entry of its own log that sets one (by that with which the group began if none does), whether it took the entry as leader or received it, and also after another leader's entries replaced entries that set a membership; the membership it holds as committed is that set by the last such entry which is committed. Two replicas which know the same index to be committed hold the same committed membership.", "quantifier": "all groups, configurations and histories of calls, deliveries (lost, repeated, reordered) and membership changes in which any two quorums of the memberships asked for overlap, and all states of all replicas in them; the last sentence for at most super_majority replicas put back to an older state", "why_tests_cant": "The lists of uncommitted memberships are kept beside the log and updated on append, on truncation and on commit; that they never differ from the log depends on the order of these in every history.", "anchors": ["enclave/raft/raft.cc: LogAppend, RefreshMembership, AddUncommittedMembership, membership, HandleAppendRequest, LeaderAdvanceCommitIndex", "enclave/raft/raft.h: voting, membership"]}
{"id": "C88", "title": "Nothing stops a replica, except a leader that was put back", "statement": "No call of the consensus and no message of another replica makes a replica's program abort (a failed check, or an access to entries or followers that are not there), in any history of its group, except when a replica that leads and was put back to an older state hears from a follower that holds entries the leader lost; and except a reset of the connection to itself, which its caller never asks for.", "quantifier": "all groups, configurations and histories of calls, deliveries (lost, repeated, reordered), replicas put back to older states and membership changes in which any two quorums of the memberships asked for overlap; all next calls and deliveries", "why_tests_cant": "The checks state invariants of the whole group (one leader per term, logs that only grow within it, follower tables that match the membership); a test only shows that its own schedule meets them.", "anchors": ["enclave/raft/raft.cc: Receive, HandleAppendResponse, HandleAppendRequest, ValidateReceivedMessage, LogAppend, LeaderAppendEntriesToFollower, ResetPeer, LogRequest, TakeCommittedLog", "enclave/core/core.cc: HandlePeerConnect"]}
{"id": "C89", "title": "A replica leaves its group before its host exits", "statement": "When the host is told to terminate, it exits only after its enclave has given up leading and the group's leader has removed it. A removal leaves out exactly the replica that asked, and nobody removes itself. The host does exit in the end.", "quantifier": "all results of all attempts of the host's loop, all states of the replicas that get the requests, all later calls", "why_tests_cant": "Refusals depend on what the group does at that moment (no leader known, another change under way, too few voters left); the last replica's wait has no end that a test could see.", "anchors": ["host/service/service.go: the SIGTERM loop of Start", "host/dispatch/dispatcher.go: SendTransaction", "enclave/core/core.cc: HandleRelinquishLeadership, HandleHostRequestedRaftRemoval, HandlePeerRequestedRaftRemoval", "enclave/raft/raft.cc: RelinquishLeadership, TryToRelinquishLeadership"]}
{"id": "C90", "title": "A leader that gives up hands over only to a voter that holds its whole log", "statement": "When a replica tells another to take over at once, it led until that very moment, in the term the message says, and leads no more; the other is one other replica and a voter, and it has held, in that same term, every entry of the leader's log as the log is at that moment. While a leader waits to give up it takes no requests and its log does not change by them.", "quantifier": "all groups, configurations and histories of calls, deliveries (lost, repeated, reordered), replicas put back to older states and membership changes in which any two quorums of the memberships asked for overlap; all next calls and deliveries", "why_tests_cant": "The leader's table of what its followers hold is built from answers that may be late, repeated or from before a truncation; that its entry for the chosen voter is true is an invariant of the whole group's history.", "anchors": ["enclave/raft/raft.cc: TryToRelinquishLeadership, RelinquishLeadership, HandleAppendResponse, MaybeChangeStateAndSendMessages, HandleMembershipChange"]}
{"id": "C91", "title": "Random bytes are all random, or the caller is told", "statement": "When the environment is asked for random bytes and says it succeeded, the whole buffer holds the bytes of its source, in order and each used once, and nothing outside the buffer was written. Otherwise the caller gets an error, and nobody goes on with bytes that were not drawn.", "quantifier": "all environments (socket simulated or on a processor, Nitro simulated or on a chip, SGX), all buffers and places in memory, all answers of the source: failures at any moment, pieces of any length", "why_tests_cant": "Sources give short answers and fail so rarely that no test meets one; a buffer that was only partly written looks as random as any other.", "anchors": ["enclave/env/socket/socket.cc: Environment::RandomBytes", "enclave/env/nsm/nsm.cc: RandomBytes", "enclave/env/sgx/sgx.cc: RandomBytes", "enclave/env/env.cc: env_randombytes_bytes", "enclave/merkle/merkle.cc: SetSIPKey", "enclave/core/core.cc: Core::RequestRaftReplication, HandleCreateNewRaftGroupRequest", "enclave/sip/hasher.cc", "enclave/noisewrap/wrap.cc", "enclave/fs/fs.cc: TmpDir::Init"]}
{"id": "C92", "title": "The time the enclave spends is counted once, by what it is spent on", "statement": "After each moment at which a thread begins or ends a measured section, the enclave's counter of a kind of work holds the sum, over all threads, of the time in which that work was the innermost one measured. The counters of one thread's work add up to the time it took: nothing is lost and nothing is counted twice.", "quantifier": "all nestings of measured sections, all numbers of threads, all interleavings, all clock values including a wrap of the 64-bit clock", "why_tests_cant": "Double counting or loss shows only as a wrong share of time; it depends on the nesting and on moments that a test does not control.", "anchors": ["enclave/context/context.h: CPUMeasurement, Context, MEASURE_CPU, IGNORE_CPU", "enclave/context/context.cc: CPUMeasurement::SetContext, ~CPUMeasurement", "enclave/metrics/metrics.cc: Counter::IncrementBy"]}
{"id": "C93", "title": "What the host reports is what the enclave counted", "statement": "For each counter of the enclave, the sum of what the host has written to its metrics is the value that the enclave had when it was last polled, to within the precision of the numbers written (one part in 2^24; exact below that), whatever polls failed and whenever an error was first counted; the sums never fall.", "quantifier": "all counters of the enclave's table, all error codes, all sequences of polls, answered or not, all rising values below 2^63", "why_tests_cant": "The host reports differences between snapshots that do not always list the same counters, matched by name and tags; a mismatch counts something twice only in some order of events.", "anchors": ["enclave/metrics/metrics.cc: AllAsPB", "enclave/metrics/counters.h", "host/dispatch/metrics.go: updateMetrics, findPrevCounter", "host/dispatch/dispatcher.go: metricLoop"]}
{"id": "C94", "title": "A host that accepts its configuration can run with it", "statement": "If the host accepts a configuration file, it does not stop because of a number in it: some thread hands requests to the enclave, each of its periodic loops wakes up again and again, and messages to other replicas can be queued. The default configuration is accepted.", "quantifier": "all configurations: all values of all the numbers and addresses in it; all numbers of processors", "why_tests_cant": "Which values are harmless depends on calls far away in the code (tickers and channels that panic on some numbers); tests use a handful of configurations.", "anchors": ["host/config/config.go: validate, Read, Default", "host/config/raft.go, redis.go, rate.go, peer.go, request.go: validate", "host/dispatch/dispatcher.go: Run, tickLoop, metricLoop, refreshAttestationLoop", "host/service/service.go: livenessChecks", "host/peer/client.go: newPeerSender, queueMessage", "host/raftmanager/raftmanager.go"]}
{"id": "C95", "title": "The password of the hosts' store is not logged", "statement": "What the host writes to its log about its configuration does not depend on the password of the Redis store in it.", "quantifier": "all configurations and passwords", "why_tests_cant": "That two lines do not differ for any two passwords is a statement about all of them; which method a print uses is decided by types, not by values.", "anchors": ["host/main.go: main (Host config)", "host/config/redis.go: RedisConfig.String, GoString"]}
{"id": "C96", "title": "The host tries again at a bounded rate and gives up a silent peer, and only that", "statement": "A call that fails is repeated, first at once, then after waits that double from the least to the greatest allowed and stay there; the first success is what is returned and nothing is called after it. Attempts to connect to a peer are apart by at least the least and at most the greatest wait, however long connections last. A peer is given up only when the two have not talked for longer than the time allowed, and one that never talks is given up after no more attempts than fit into that time.", "quantifier": "all sequences of failures and successes, all durations of attempts and connections, all settings (least wait positive where giving up is claimed)", "why_tests_cant": "The waits depend on the whole history of attempts and on their durations; minutes of failures are not waited for in tests.", "anchors": ["host/util/util.go: Clamp, RetrySupplierWithBackoff", "host/peer/client.go: peerSender.run"]}
{"id": "C97", "title": "What clients send cannot make the host keep ever more counters", "statement": "The labels under which the host counts an HTTP request come from a fixed set, whatever the request says, and above all if the client has not shown who it is. A user agent is counted for the platform it names and for nothing else. The status that is counted is the one that was sent.", "quantifier": "all requests: all methods, user agents and credentials; all things handlers do with the response", "why_tests_cant": "A bound on the number of counters is a statement about all requests together; which letters a pattern takes for equal is known only for all of Unicode.", "anchors": ["host/web/middleware/metrics.go: Instrument, writerWrapper", "host/web/middleware/auth.go: AuthCheck", "host/util/user_agent.go: ParseTags, ParseUserAgent, parsePlatform"]}
{"id": "C98", "title": "A user is let in as often as the limit says, and no more", "statement": "Across all hosts of a deployment, a user's request is let in exactly if with it, in every stretch of time that ends now, the user's requests that were let in are no more than the bucket holds plus what leaks from it in that time. Other users' requests do not change that. Who is refused and waits as long as they were told is let in.", "quantifier": "all settings with a positive rate and period, all users, all sequences of requests and expiries in Redis, all stretches of time", "why_tests_cant": "The bound is about all stretches of time at once and about the requests of all hosts together; it depends on exact moments.", "anchors": ["host/rate/rate.go: Limit, redisKey, NewConfiguredLimiter", "host/web/middleware/rate.go: RateLimit", "host/config/rate.go"]}
{"id": "C99", "title": "A fatal error stops the enclave, whatever is logged", "statement": "A failed check and a fatal error stop the enclave process, and the threads that serve the host run, at every log level the enclave accepts: which messages are logged never changes what the enclave does. In the code a failed check always stops it, but a fatal log statement is skipped, with everything it evaluates, at a level below FATAL: after the host sets the level NONE (which is accepted) a faulting instruction runs its handler for ever, and an enclave started with a negative level answers its init and then takes no message.", "quantifier": "every first level, every sequence of levels the host sends (any 32-bit value of the open enumeration), every fatal statement, every number of faults", "why_tests_cant": "Tests run at the default level or the highest one; the levels are an open enumeration and the statement must hold after every history of settings.", "anchors": ["enclave/util/log.h:LOG", "enclave/util/log.cc:Log::~Log", "enclave/util/macros.h:CHECK", "enclave/core/core.cc:kSetLogLevel", "enclave/env/socket/socket.cc:LogFatalSignalHandler", "enclave/socketmain/socketmain.cc:RunServer"]}
{"id": "C100", "title": "Setting the log level sets it for the host and its enclave together", "statement": "A request to set the log level either is answered with success, and then host and enclave have the level that was named and every message of the enclave of that level or a graver one is written by the host, on SGX and through the socket, and no other is sent; or it fails and changes nothing. In the code the host's level is changed first and not put back: if the enclave cannot be reached, or the name is MAX (which the host knows and the enclave always refuses), the host keeps the new level and the enclave the old one.", "quantifier": "every named level, every state of host and enclave, every message level, whether the enclave can be reached or not", "why_tests_cant": "Tests of the handler use a stub for the enclave that accepts any level, so they cannot see the two disagree.", "anchors": ["host/web/handlers/set_log_level.go:ServeHTTP", "host/web/handlers/set_log_level.go:parseLogLevel", "host/enclave/socket.go:handleLog", "host/enclave/logging.go:svr2LogCallback", "enclave/core/core.cc:kSetLogLevel"]}
{"id": "C101", "title": "The operator's tool says what happened", "statement": "Each command of the operator's tool ends with success exactly if the enclave got the request that the command stands for and answered it without an error; it asks the enclave at most once per request and nothing at all if its arguments make no sense; and it prints what the enclave answered. In the code this holds for the commands that ask for one change and for the event log; but pinging a peer ends with success even if every ping failed, and metrics prints the counters a second time as gauges, so that no gauge is ever shown.", "quantifier": "every command and its arguments, every behaviour and state of host and enclave, every loss of a request or answer, every number of pings, every set of counters and gauges", "why_tests_cant": "There are no tests of the tool; the statement ranges over everything an enclave may answer and over lost messages.", "anchors": ["host/cmd/control/main.go:metrics", "host/cmd/control/main.go:pingPeer", "host/cmd/control/main.go:resetPeer", "host/cmd/control/main.go:updateMinimum", "host/cmd/control/main.go:eventLog", "host/web/client/control_client.go:DoJSON", "host/web/handlers/control.go:ServeHTTP"]}
{"id": "C102", "title": "What a host says of its health is so, and recent", "statement": "At every time a host's liveness endpoint has one answer. If it says the host lives, the host's enclave gave it a status less than one check period and one timeout ago; so an enclave that falls silent is reported within that time, and one that answers in good time again is reported as living within the longer of the two and the time it takes to answer. Before the first check is over it is not reported as living. The readiness endpoint says ready exactly from when the host is in its group until it is told to terminate; this does not depend on its liveness.", "quantifier": "every period, timeout and start, every time at which an enclave answers or fails to answer each request, every moment of asking, every history of joining and terminating", "why_tests_cant": "The checks run for months on a timer that may drop ticks; tests look at one answer, not at every pattern of slow, failed and late answers at every moment.", "anchors": ["host/service/service.go:livenessChecks", "host/service/service.go:livenessCheck", "host/service/service.go:Start", "host/health/health.go:Health"]}
{"id": "C103", "title": "Files are read whole, temporary directories are one's own and go away", "statement": "Reading a file gives its whole contents or an error, however the reads are split, gives the contents if no system call fails, and leaves no descriptor open. A temporary directory did not exist before, belongs to one object, and is removed with everything in it, and nothing else, when the object goes. In the code, if standard input is closed the first file read fails although it was opened, and its descriptor stays open; and a link, pipe or socket in a temporary directory stays behind with the directories above it.", "quantifier": "every file, every way the system splits or fails the reads, every set of descriptors in use, every tree in a temporary directory", "why_tests_cant": "Tests read a few small files in a usual process; the number and size of partial reads, the descriptors in use and the tree to be removed are unbounded.", "anchors": ["enclave/fs/fs.cc:FileContents", "enclave/fs/fs.cc:TmpDir::Init", "enclave/fs/fs.cc:TmpDir::~TmpDir"]}
{"id": "C104", "title": "An enclave on Azure that starts has verified itself", "statement": "When an enclave on Azure SNP has started, every command that gathers its certificates has succeeded, what it will show of itself is what these wrote, and this evidence passed the same verification that others will apply to it; otherwise it stops. What fails only for a while is tried again, for two to three minutes. In the code the first part holds where fatal messages are logged (below that level an enclave starts whatever failed); but a command is last tried after 31 seconds of waiting, and a certificate server that answers with an error is not asked again: its page is taken for the certificate and the enclave stops.", "quantifier": "every machine: every behaviour of the commands, files, quotes and the verification, every time from which a command works, every server", "why_tests_cant": "It needs a real machine of this kind and failures at each step; tests do not run this code at all.", "anchors": ["enclave/env/azuresnp/azuresnp.cc:Environment::Init", "enclave/env/azuresnp/azuresnp.cc:CurrentEvidence", "enclave/util/log.h:LOG"]}
{"id": "C105", "title": "The load test runs each user once, spreads them over the hosts and reports what it measured", "statement": "However its workers are scheduled, the load test runs each user's create and restore exactly once; it opens each connection to a host that has the fewest open; and the least, greatest and total times it reports for creates and restores are those it measured. In the code the first holds for counts below 2^31 and a least busy host is chosen, but a host counts as busy only while it is dialled, so all connections may be to one host; the least time of a restore is never reported (a constant is), and a fast restore is reported as the least time of a create.", "quantifier": "every schedule of every number of workers, every count, every set of hosts and order of choosing, every list of times measured", "why_tests_cant": "The schedule of the workers and the order in which a Go map is walked differ from run to run; the tool has no tests.", "anchors": ["host/cmd/svr3client/main.go:runLoadTest", "host/cmd/svr3client/main.go:getHost", "host/cmd/svr3client/main.go:returnHost", "host/cmd/svr3client/main.go:newWebsocket"]}
{"id": "C106", "title": "What an enclave on GCP shows of itself is made for the data at hand, and it has verified itself when it starts", "statement": "Evidence that an enclave on GCP gives for some data carries that data, a quote of the TPM taken at that moment over the hash of exactly that data, and the SNP report and runtime data made at the start; nothing of an older quote is left in it. The enclave goes on after the start only if each step has worked and evidence that it made then verifies against its own certificates and PCRs. A failure that passes, such as an error page from the server of certificates, does not stop it.", "quantifier": "all data, times, earlier evidence, TPM answers, certificate servers, SEV firmware answers, hash and verification functions", "why_tests_cant": "There is no TPM or SEV device in unit tests, and the merge of old and new evidence matters only for answers they never see.", "anchors": ["enclave/env/gcpsnp/gcpsnp.cc: Environment::Evidence, Environment::Init, GcpEvidenceAndEndorsements", "host/cmd/svr3gcp/main.go: Run"]}
{"id": "C107", "title": "The command-line client asks for the user it was given and says with its status whether that was done", "statement": "Whatever is given as the user is turned into a name of 16 bytes in hex: a name stays as it is, anything else is hashed, so that a printed name can be given again and two users are taken for one only by a collision of hashes. Each subcommand makes one request for that user and leaves status 0 exactly if the server says that it was done: the backup or exposure stored, the data restored, the backup deleted, every backup of a load test stored; anything else, including a subcommand there is not, leaves another status.", "quantifier": "all users, PINs, subcommands, hash functions, servers and their answers", "why_tests_cant": "Scripts rely on the status for every answer a server may give; the tool has no tests.", "anchors": ["host/cmd/svr2client/main.go: main, toUser, runBackup, runExpose, runRestore, runDelete, runLoadTest", "host/web/client/svr.go: Send2"]}
{"id": "C108", "title": "What the Go client returns is the enclave's answer to the request that was sent", "statement": "Within a session, the enclave gets the client's requests in the order they were sent, none twice and none after one that is missing, and the client returns the enclave's answers in its order, none twice and none left out, whatever the host between them drops, repeats, delays or makes up. An answer that a call returns is the answer to the request of that call.", "quantifier": "all lists of requests, enclaves, and hosts that choose for each exchange what is passed on and what is read", "why_tests_cant": "A test has one well-behaved host; this is about every way in which a host can pass messages on.", "anchors": ["host/web/client/svr.go: SVRClient.send, Send2, Send3"]}
{"id": "C109", "title": "Secrets of backups that were removed or replaced do not stay in the memory of the database", "statement": "At any time, whatever was stored, replaced, removed, exhausted, rotated or loaded from another replica before, the memory that the rows of a database have or had holds no byte of a secret but those of the backups there are now; and it holds those.", "quantifier": "all histories of storing, removing and loading, all secrets, all choices of the allocator, for the rows of SVR2, SVR3 and the two later databases", "why_tests_cant": "What is left in freed memory cannot be seen through the API, and depends on every path by which a row comes and goes.", "anchors": ["enclave/util/bytes.cc: MemZeroS", "enclave/db/db2.cc: DB2::Row::Clear, Delete, Restore, LoadRowsFromProtos", "enclave/db/db3.cc: Evaluate, Remove", "enclave/db/db4.cc: DB4::Row::~Row, DB4::Row::Row, DB4::RotateRow::~RotateRow", "enclave/db/db5.cc: DB5::Row::~Row, DB5::Row::Row"]}
{"id": "C110", "title": "A proof of the PIN that was accepted on one connection is of no use on another", "statement": "If the same proof is accepted by the two-step restore of the later database on two connections, for the same commitment, then both connections have the same handshake and the same blinded element was asked for on them; otherwise the two make a collision of the hash that gives the challenge. So what a host or another client sees of one restore cannot be used to make another one succeed. And a proof that holds for the last first step on its own connection, with no request since, is accepted and answered with the share of the version asked for.", "quantifier": "all histories of both connections, proofs, versions, commitments, handshake hashes of 32 bytes, hash functions and groups in which points can be subtracted and multiples of a commitment differ", "why_tests_cant": "A test can replay one proof; that no split of the hashed bytes makes two sessions look the same is about all of them.", "anchors": ["enclave/db/db4.cc: DB4::ClientState::Restore2, ResponseFromRequest, ResponseFromEffect", "enclave/sha/sha.cc: Sha512"]}
