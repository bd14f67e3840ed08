{
 "claims": [
  {
   "property": "C01",
   "status": "proved",
   "theorems": [
    "C01_guess_limit"
   ],
   "note": ""
  },
  {
   "property": "C02",
   "status": "proved",
   "theorems": [
    "C02_right_pin",
    "C02_ok_means_right_pin",
    "C02_no_data_otherwise"
   ],
   "note": ""
  },
  {
   "property": "C03",
   "status": "proved",
   "theorems": [
    "C03_right_pin_costs_nothing",
    "C03_wrong_pin_costs_one",
    "C03_tries_never_rise",
    "C03_query_changes_nothing"
   ],
   "note": ""
  },
  {
   "property": "C04",
   "status": "proved",
   "theorems": [
    "C04_invisible_until_exposed",
    "C04_expose_needs_data"
   ],
   "note": ""
  },
  {
   "property": "C05",
   "status": "proved",
   "theorems": [
    "C05_db2_isolation",
    "C05_db3_isolation",
    "C05_db4_isolation",
    "C05_db5_isolation"
   ],
   "note": ""
  },
  {
   "property": "C06",
   "status": "proved",
   "theorems": [
    "C06_db2_delete_final",
    "C06_db3_remove_final",
    "C06_db4_remove_final",
    "C06_db5_purge_final"
   ],
   "note": ""
  },
  {
   "property": "C07",
   "status": "proved",
   "theorems": [
    "C07_evaluation_limit",
    "C07_query_truthful"
   ],
   "note": ""
  },
  {
   "property": "C08",
   "status": "proved",
   "theorems": [
    "C08_key_of_last_create",
    "C08_key_chosen_by_enclave"
   ],
   "note": ""
  },
  {
   "property": "C09",
   "status": "proved",
   "theorems": [
    "C09_restore_limit",
    "C09_query_truthful"
   ],
   "note": ""
  },
  {
   "property": "C10",
   "status": "proved",
   "theorems": [
    "C10_commit",
    "C10_rollback",
    "C10_other_versions_have_no_effect",
    "C10_same_version_refused",
    "C10_create_cancels_rotation",
    "C10_restore_sees_both"
   ],
   "note": ""
  },
  {
   "property": "C11",
   "status": "proved",
   "theorems": [
    "C11_restore2_gated",
    "C11_commitment_of_last_create",
    "C11_state_used_once"
   ],
   "note": "A request for version 0 while no rotation is pending is answered OK with an empty share (Example x4_version0); no secret is released, and the theorem states the share exactly."
  },
  {
   "property": "C12",
   "status": "proved",
   "theorems": [
    "C12_db2_transfer_lossless",
    "C12_db2_load_rejects_bad_rows",
    "C12_db3_transfer_lossless",
    "C12_db3_load_rejects_bad_rows",
    "C12_db4_transfer_lossless",
    "C12_db4_load_rejects_bad_rows",
    "C12_db5_transfer_lossless",
    "C12_db5_load_rejects_bad_rows"
   ],
   "note": "All four stores. For DB4 under the hypothesis that scalar addition returns a canonical scalar (libsodium's scalar_add reduces)."
  },
  {
   "property": "C13",
   "status": "proved",
   "theorems": [
    "C13_db2_same_contents_same_hash",
    "C13_db2_different_contents",
    "C13_db3_same_contents_same_hash",
    "C13_db3_different_contents",
    "C13_db4_same_contents_same_hash",
    "C13_db4_different_contents",
    "C13_db5_same_contents_same_hash",
    "C13_db5_different_contents"
   ],
   "note": ""
  },
  {
   "property": "C14",
   "status": "proved",
   "theorems": [
    "C14_db2_no_crash",
    "C14_db2_history_never_crashes",
    "C14_db2_validation_is_legality",
    "C14_db3_no_crash",
    "C14_db3_history_never_crashes",
    "C14_db3_validation_is_legality",
    "C14_db4_no_crash",
    "C14_db4_history_never_crashes",
    "C14_db4_validation_is_legality",
    "C14_db5_no_crash",
    "C14_db5_history_never_crashes",
    "C14_db5_validation_is_legality"
   ],
   "note": ""
  },
  {
   "property": "C15",
   "status": "partial",
   "theorems": [
    "C15_db2_refuted",
    "C15_db2_row_size_bound",
    "C15_db3_refuted",
    "C15_db3_row_size_bound",
    "C15_db4_refuted",
    "C15_db4_row_size_bound",
    "C15_db5_row_size_bound"
   ],
   "note": "False of the code for three of the four stores: reachable rows of 107 (DB2), 55 (DB3) and over 234 (DB4) bytes exceed MaxRowSerializedSize (105, 54, 234). The refutations and the true bounds are proved; DB5's bound holds and is exact."
  },
  {
   "property": "C16",
   "status": "proved",
   "theorems": [
    "C16_leaves_verify",
    "C16_db2_checks_pass",
    "C16_db3_checks_pass",
    "C16_db4_checks_pass",
    "C16_db5_checks_pass"
   ],
   "note": ""
  },
  {
   "property": "C17",
   "status": "proved",
   "theorems": [
    "C17_tampering_detected",
    "C17_db2_restore_truthful",
    "C17_db3_evaluate_truthful",
    "C17_db4_row_truthful",
    "C17_db5_download_truthful"
   ],
   "note": "Up to a collision of the tree hash or of the 64-bit truncation of the row hash, which is the disjunct in each theorem. For DB4 the row hash does not distinguish 'no rotation' from an all-zero rotation; the conclusion says so."
  },
  {
   "property": "C18",
   "status": "partial",
   "theorems": [
    "C18_verified_writes_partial",
    "C18_refuted",
    "C18_db2_refuted"
   ],
   "note": "False of the code: Backup/Create/Upload/Delete re-hash the path of a row without verifying it, so a rolled-back row of another account in the same subtree verifies again (C18_refuted for every hash function, C18_db2_refuted end to end). Proved instead: detection survives any number of changes that verify first."
  },
  {
   "property": "C19",
   "status": "proved",
   "theorems": [
    "C19_committed_entries_agree",
    "C19_committed_logs_are_prefixes",
    "C19_committed_entries_exist",
    "C19_applied_entries_agree"
   ],
   "note": "Any number of replicas, events and rollbacks of at most super_majority distinct replicas, with a fixed membership (membership changes: C27). No two logs that ever existed may show a hash collision. C19_bound_is_tight shows the rollback bound cannot be relaxed."
  },
  {
   "property": "C20",
   "status": "proved",
   "theorems": [
    "C20_committed_and_promised_never_change",
    "C20_messages_cannot_contradict_a_promise"
   ],
   "note": "For every replica the constructor can build and every sequence of calls that does not crash, with arbitrary message contents. A group member that lies about what it promised can push the leader's commit index beyond its log; the entries themselves still never change."
  },
  {
   "property": "C21",
   "status": "proved",
   "theorems": [
    "C21_delivered_once_in_order",
    "C21_nothing_left_out"
   ],
   "note": ""
  },
  {
   "property": "C22",
   "status": "proved",
   "theorems": [
    "C22_terms_never_go_back",
    "C22_one_vote_per_term",
    "C22_votes_only_for_up_to_date_logs"
   ],
   "note": ""
  },
  {
   "property": "C23",
   "status": "proved",
   "theorems": [
    "C23_one_leader_per_term"
   ],
   "note": "Same setting as C19, over all states any replica was ever in."
  },
  {
   "property": "C24",
   "status": "proved",
   "theorems": [
    "C24_logs_are_chained",
    "C24_equal_hash_equal_prefix",
    "C24_equal_hash_equal_stored_entries",
    "C24_messages_are_checked_against_the_chain"
   ],
   "note": "Up to a collision of the keyed hash between two inputs that occur in the two logs (the disjunct of the theorem). Entries are assumed to have terms and indexes below 2^64 and peer ids below 4 GiB, as their types do."
  },
  {
   "property": "C25",
   "status": "proved",
   "theorems": [
    "C25_quorums_overlap",
    "C25_quorums_overlap_one_more",
    "C25_quorum_attainable"
   ],
   "note": ""
  },
  {
   "property": "C26",
   "status": "proved",
   "theorems": [
    "C26_accepted_is_safe_step",
    "C26_only_safe_steps_requested",
    "C26_malformed_group_refused",
    "C26_reachable_replicas_request_only_safe_steps"
   ],
   "note": ""
  },
  {
   "property": "C27",
   "status": "partial",
   "theorems": [
    "C27_agreement_while_quorums_overlap_partial",
    "C27_logs_while_quorums_overlap_partial",
    "C27_applied_while_quorums_overlap_partial",
    "C27_one_leader_while_quorums_overlap_partial",
    "C27_one_voter_comes_and_goes_partial",
    "C27_leader_votes_partial",
    "C27_agreement_across_membership_changes_refuted"
   ],
   "note": "False of the code for all histories: a new leader may start a membership change before it has committed an entry of its own term, so two leaders can commit under memberships two steps apart (C27_agreement_across_membership_changes_refuted, an executed schedule of five replicas). Proved: agreement of committed and applied entries, prefix order of the committed logs, one leader per term, leaders always vote, for every history of changes in which any two quorums of the memberships asked for share more than super_majority replicas; and so for a voter that is added and removed any number of times (C27_one_voter_comes_and_goes_partial). Missing: histories in which some two memberships asked for do not overlap, even if each step does. Agreement under a fixed membership is C19, overlap of adjacent memberships C25."
  },
  {
   "property": "C28",
   "status": "partial",
   "theorems": [
    "C28_leader_has_committed_entries_partial",
    "C28_leader_has_committed_entries_refuted"
   ],
   "note": "False of the code in general: MaybeAdvanceCommitIndex commits entries of earlier terms by counting replicas, so a later leader can lack a committed entry (C28_leader_has_committed_entries_refuted). The later leader cannot commit anything different (C19) as the promises of a quorum block it. Proved (C28_leader_has_committed_entries_partial): for an entry that is committed while its replica is still in the entry's own term, every later leader has it and all before it; for groups that start with an empty log, changes between memberships whose quorums overlap, at most super_majority replicas put back, and no former leader among these."
  },
  {
   "property": "C29",
   "status": "partial",
   "theorems": [
    "C29_never_exceeds_budget",
    "C29_append_never_crashes",
    "C29_lookup_exact",
    "C29_unapplied_kept",
    "C29_space_partial",
    "C29_accounting_partial",
    "C29_space_refuted"
   ],
   "note": "Budget, crash freedom, exact lookup and retention of unapplied entries hold for every history. 'An append fails only if the entries do not fit' is false after a cancellation (C29_space_refuted: CancelFrom does not give back the bytes); it and exact accounting are proved for histories without cancellations."
  },
  {
   "property": "C30",
   "status": "proved",
   "theorems": [
    "C30_answered_exactly_once",
    "C30_requests_are_told_apart",
    "C30_a_good_answer_means_applied",
    "C30_where_a_request_is",
    "C30_the_applied_entry_is_the_request",
    "C30_a_good_answer_means_this_request_applied",
    "C30_answered_when_the_index_is_applied",
    "C30_another_entry_means_an_error",
    "C30_nothing_good_after_an_error",
    "C30_turned_down_at_once"
   ],
   "note": "Over the raft replica of Raft.v and any database. A good answer comes only in the step that applies the entry at the request's place; that entry is the request, or the keyed hash has a collision that the theorem names. Forwarded requests: the place is what the leader answered."
  },
  {
   "property": "C31",
   "status": "partial",
   "theorems": [
    "C31_db2_ends_as_source_partial",
    "C31_db3_ends_as_source_partial",
    "C31_db4_ends_as_source_partial",
    "C31_db5_ends_as_source_partial",
    "C31_dropped_log_refuted",
    "C31_reordered_refuted",
    "C31_empty_log_refuted"
   ],
   "note": "Proved for DB2-DB5, any chunk size, pipeline and interleaving, when messages are handled in order and the source's log kept every entry until it was sent. Refuted when the source's log drops applied but unsent entries, when messages are reordered, and for a source with an empty log (index off by one)."
  },
  {
   "property": "C32",
   "status": "proved",
   "theorems": [
    "C32_proposals_change_one_other_peer",
    "C32_leader_keeps_its_role",
    "C32_voters_stay_within_limits",
    "C32_proposals_are_acceptable",
    "C32_needed_changes_are_proposed"
   ],
   "note": "For every reachable replica; peer ids have 32 bytes (the C++ type). Also: the proposal passes the membership rules unless it would give up the super-majority, and needed changes are proposed."
  },
  {
   "property": "C33",
   "status": "proved",
   "theorems": [
    "C33_within_range_of_any_majority",
    "C33_is_a_reported_clock",
    "C33_counts_the_clocks_used",
    "C33_attested_time_heard_all_voters",
    "C33_all_voters_heard_is_attested"
   ],
   "note": ""
  },
  {
   "property": "C34",
   "status": "proved",
   "theorems": [
    "C34_runs_once_when_due",
    "C34_has_run_after_its_tick",
    "C34_never_early",
    "C34_cancelled_never_runs",
    "C34_never_overflows"
   ],
   "note": "A cancellation after the due tick has begun is too late (Example x_too_late). Histories that overflow the 64-bit tick counter crash in the model and are excluded."
  },
  {
   "property": "C35",
   "status": "proved",
   "theorems": [
    "C35_limits_only_tighten",
    "C35_rejected_stays_rejected",
    "C35_refused_changes_nothing",
    "C35_accepted_updates"
   ],
   "note": ""
  },
  {
   "property": "C36",
   "status": "partial",
   "theorems": [
    "C36_missing_values_refuted",
    "C36_present_values_partial",
    "C36_numbers_partial"
   ],
   "note": "False of the code: a constrained value that the attestation leaves out passes (C36_missing_values_refuted). For the values present acceptance is exactly: right size and not below the limit, which for 64-bit numbers is the numeric order."
  },
  {
   "property": "C37",
   "status": "proved",
   "theorems": [
    "C37_data_only_from_attested_peers",
    "C37_data_only_to_attested_peers",
    "C37_reset_returns_to_unauthenticated",
    "C37_failures_disconnect",
    "C37_good_evidence_connects",
    "C37_fresh_links_stay"
   ],
   "note": "For every attestation function and minimum check and every interleaving of peer operations with the clock and minimum sweeps. Noise handshake outcomes are inputs. A constant attestation timeout; times are unbounded integers."
  },
  {
   "property": "C38",
   "status": "partial",
   "theorems": [
    "C38_honest_delivery",
    "C38_sender_encryptions",
    "C38_no_nonce_twice",
    "C38_tampering_partial",
    "C38_injection_refuted"
   ],
   "note": "The AEAD is idealised as no_forgery over the delivered pieces. Refuted for an injected empty ciphertext: Decrypt returns OK for it without checking any MAC, so an empty message nobody sent is delivered; C38_tampering_partial proves the claim for non-empty ciphertexts."
  },
  {
   "property": "C39",
   "status": "proved",
   "theorems": [
    "C39_messages_come_through",
    "C39_cut_off_messages_are_errors",
    "C39_oversized_prefix_rejected"
   ],
   "note": "recv() returns any split of the stream; protobuf parsing itself is external (messages are byte strings)."
  },
  {
   "property": "C40",
   "status": "proved",
   "theorems": [
    "C40_sent_in_order_nothing_lost",
    "C40_flush_means_sent",
    "C40_flush_completes",
    "C40_answers_of_writes"
   ],
   "note": "Every interleaving of writers, sender steps and flushes; C40_flush_completes shows a flush cannot wait for ever. The 64-bit write counter is unbounded in the model; killing the sender (tests only) is left out."
  },
  {
   "property": "C41",
   "status": "partial",
   "theorems": [
    "C41_bounded_fifo",
    "C41_flush_refuted",
    "C41_flush_partial",
    "C41_waits_only_when_it_must"
   ],
   "note": "FIFO and bound hold. Flush is refuted: popped_ is never initialized, so a start value near 2^64 lets Flush return while items are queued. Proved when the counter does not overflow."
  },
  {
   "property": "C42",
   "status": "proved",
   "theorems": [
    "C42_hex_roundtrip",
    "C42_hex_accepts",
    "C42_base64_roundtrip",
    "C42_base64_accepts",
    "C42_integers_roundtrip",
    "C42_base64_is_rfc4648",
    "C42_hex_format",
    "C42_integer_format"
   ],
   "note": "The base64 decoder does not insist on canonical trailing bits or on the amount of padding; the theorem says exactly what it accepts."
  },
  {
   "property": "C43",
   "status": "proved",
   "theorems": [
    "C43_equals_is_equality",
    "C43_never_crashes",
    "C43_accesses_depend_on_length_only"
   ],
   "note": ""
  },
  {
   "property": "C44",
   "status": "partial",
   "theorems": [
    "C44_table_bounds_refuted",
    "C44_seven_bit_partial"
   ],
   "note": "False of the code where char is signed (x86-64): a byte from 128 on indexes far outside the table (C44_table_bounds_refuted). Proved for 7-bit input, including the in-place CHECK."
  },
  {
   "property": "C45",
   "status": "proved",
   "theorems": [
    "C45_ids_unique",
    "C45_lookup_finds_that_client",
    "C45_open_until_closed",
    "C45_closed_stays_closed"
   ],
   "note": "For fewer than 2^64 connections; the id counter is 64 bits."
  },
  {
   "property": "C46",
   "status": "proved",
   "theorems": [
    "C46_requests_are_numbered_in_order",
    "C46_answered_exactly_once",
    "C46_why_a_callback_runs",
    "C46_the_peers_answer_arrives",
    "C46_other_answers_are_ignored",
    "C46_a_reset_answers_all",
    "C46_a_timeout_bounds_the_wait",
    "C46_the_timer_catches_up"
   ],
   "note": "Requests to peers over the model of timeouts: each is numbered in order and its callback runs exactly once or it still waits; each call has its reason (not sent, answer of that peer, enough ticks, reset); other answers change nothing; a reset answers all; a timeout bounds the wait. Numbers are unbounded; contents of messages are left out."
  },
  {
   "property": "C47",
   "status": "proved",
   "theorems": [
    "C47_parse_is_strict",
    "C47_roundtrip",
    "C47_valid_is_nonzero",
    "C47_total_order"
   ],
   "note": ""
  },
  {
   "property": "C48",
   "status": "partial",
   "theorems": [
    "C48_in_order_at_most_once",
    "C48_total",
    "C48_session_prefix_refuted",
    "C48_session_prefix_partial"
   ],
   "note": "Order and at most once are proved for all histories shorter than 2^31 steps. The prefix of each session is refuted (C48_session_prefix_refuted: numbers restart from the old session after a reconnection with an unread Syn) and proved for the histories where that does not happen."
  },
  {
   "property": "C49",
   "status": "partial",
   "theorems": [
    "C49_no_silent_loss_refuted",
    "C49_enclave_failure_refuted",
    "C49_no_silent_loss_partial",
    "C49_accepted_sent_in_order",
    "C49_refused_reported"
   ],
   "note": "Refuted twice (stale numbers after a reconnection with an unread Syn; a peer message the enclave fails to take is acknowledged). Proved for orderly histories: nothing is lost and a reconnection catches up; accepted messages are sent in order; refused ones are reported."
  },
  {
   "property": "C50",
   "status": "proved",
   "theorems": [
    "C50_roundtrip",
    "C50_sequence",
    "C50_bounded",
    "C50_longer_rejected",
    "C50_longer_payload_rejected",
    "C50_sound",
    "C50_cut_is_error"
   ],
   "note": "Round trip for a frame and a sequence, bounded allocation, soundness, truncation is an error. The writer does not check the length: a longer payload is written and refused by the reader (C50_longer_payload_rejected)."
  },
  {
   "property": "C51",
   "status": "proved",
   "theorems": [
    "C51_check_exact",
    "C51_issued_until_expiry",
    "C51_mac_input_injective",
    "C51_usual_exists_unique",
    "C51_other_user_needs_collision"
   ],
   "note": "The MAC is a parameter; a token accepted for another user exhibits a MAC collision on different inputs. Times within int64 range."
  },
  {
   "property": "C52",
   "status": "proved",
   "theorems": [
    "C52_no_panic",
    "C52_own_reply",
    "C52_ids_distinct",
    "C52_at_most_once",
    "C52_response_reaches",
    "C52_error_reaches"
   ],
   "note": "Every interleaving of callers, workers, errors, responses and receives, of fewer than 2^64-1 operations (ids then do not wrap)."
  },
  {
   "property": "C53",
   "status": "proved",
   "theorems": [
    "C53_groups_run_within_limits",
    "C53_start_exactly_within_limits",
    "C53_created_only_from_nothing",
    "C53_created_at_most_once",
    "C53_running_config_never_changes",
    "C53_members_refuse_to_join",
    "C53_timing_limits_hold",
    "C53_reconfigure_exactly_within_limits",
    "C53_runs_with_what_was_asked",
    "C53_new_group_is_as_configured",
    "C53_member_exactly_if_in_the_log"
   ],
   "note": "The super-majority is not limited by the code; a group's is the one the replica was configured with."
  },
  {
   "property": "C54",
   "status": "proved",
   "theorems": [
    "C54_download_uses_last_upload",
    "C54_ok_means_last_upload"
   ],
   "note": ""
  },
  {
   "property": "C55",
   "status": "partial",
   "theorems": [
    "C55_accepted_updates_apply_refuted",
    "C55_one_at_a_time_partial",
    "C55_connected_peers_meet_the_limits",
    "C55_accepted_updates_keep_peers_partial"
   ],
   "note": "False of the code: two requests accepted under the same limits, the second below the first, make every replica that applies the second abort (C55_accepted_updates_apply_refuted). Proved when a request is made only after the previous one is committed."
  },
  {
   "property": "C56",
   "status": "partial",
   "theorems": [
    "C56_short_requests_partial",
    "C56_truncation_refuted"
   ],
   "note": "Refuted: a client message of more than 65519 bytes is encrypted in pieces with no mark of the last one, so the network can cut it at a piece boundary and the enclave accepts the prefix. C56_short_requests_partial proves the claim when every message is shorter than one piece."
  },
  {
   "property": "C57",
   "status": "proved",
   "theorems": [
    "C57_evidence_is_for_the_key"
   ],
   "note": "Evidence contents are abstract: the key and what was put beside it. Before the first refresh there is no evidence (the code sends an empty one)."
  },
  {
   "property": "C58",
   "status": "partial",
   "theorems": [
    "C58_old_keys_are_not_used_again_refuted",
    "C58_old_keys_are_not_used_again_partial",
    "C58_rotation_brings_a_new_key_partial"
   ],
   "note": "Refuted: RefreshAttestation reads the key, makes evidence unlocked and then puts that key back, so a rotation in between is undone. Proved when rotations and refreshes do not overlap."
  },
  {
   "property": "C59",
   "status": "partial",
   "theorems": [
    "C59_one_attempt_loads_from_its_answer_partial",
    "C59_one_attempt_never_crashes_partial",
    "C59_old_answer_loads_refuted",
    "C59_old_answer_crashes_refuted"
   ],
   "note": "False of the code when a second join request follows the first: the callback of the transfer request does not check that the load it belongs to is the current one (C59_old_answer_loads_refuted, C59_old_answer_crashes_refuted). Proved for replicas that get at most one request to join."
  },
  {
   "property": "C60",
   "status": "partial",
   "theorems": [
    "C60_answered_if_the_place_is_known_in_time_partial",
    "C60_an_applied_request_may_wait_forever_refuted"
   ],
   "note": "False of the code: if a follower applies the entry before the leader's answer about its place arrives, the request is never answered (C60_an_applied_request_may_wait_forever_refuted). Proved for requests whose place is known before it is applied, in particular all that are not forwarded (C30_answered_when_the_index_is_applied)."
  },
  {
   "property": "C61",
   "status": "proved",
   "theorems": [
    "C61_quote_read_exactly",
    "C61_quote_unambiguous",
    "C61_pcrs_read_exactly",
    "C61_pcrs_verified_exactly",
    "C61_signature_read_exactly"
   ],
   "note": "Both directions: accepted iff of the form given in Tpm2Spec.v, and the parsed fields are those of the form."
  },
  {
   "property": "C62",
   "status": "partial",
   "theorems": [
    "C62_table_read_exactly_partial",
    "C62_good_table_read",
    "C62_in_bounds_refuted"
   ],
   "note": "Refuted as stated: offset + length wraps at 32 bits, so an entry can pass the checks and 4 GiB be copied out of a small buffer (C62_in_bounds_refuted). C62_table_read_exactly_partial describes the result for every buffer below 2^32-24 bytes and says that the buffer is left only for an entry that wraps."
  },
  {
   "property": "C63",
   "status": "proved",
   "theorems": [
    "C63_accepted_exactly",
    "C63_quote_binds_data",
    "C63_report_binds_key",
    "C63_azure_buffer",
    "C63_own_runtime_data"
   ],
   "note": "For every world (functions for certificates, signatures, hashes, JSON and protobuf). good_evidence in Tpm2SnpSpec.v is the English claim."
  },
  {
   "property": "C64",
   "status": "partial",
   "theorems": [
    "C64_debug_refused_partial",
    "C64_policy_not_looked_at",
    "C64_debug_refused_refuted"
   ],
   "note": "Refuted for the verifier used on Azure and Google Cloud: policy, version and measurement of the SNP report are never looked at (C64_debug_refused_refuted, C64_policy_not_looked_at). C64_debug_refused_partial: DataFromVerifiedAttestation, which only tests call, refuses such guests."
  },
  {
   "property": "C65",
   "status": "proved",
   "theorems": [
    "C65_reported_versions",
    "C65_limits_hold_for_the_machine"
   ],
   "note": "Limits of one byte, the size of the values."
  },
  {
   "property": "C66",
   "status": "partial",
   "theorems": [
    "C66_no_crash_partial",
    "C66_wrong_key_crashes",
    "C66_no_crash_refuted"
   ],
   "note": "Refuted: a certificate signed by AMD for a non-EC key in place of the VCEK makes ECDSA_do_verify dereference null; JSON values that are not objects and non-ASCII base64 are read out of bounds (C66_no_crash_refuted, C66_wrong_key_crashes). C66_no_crash_partial: no crash when the VCEK key is EC and the runtime data is well-formed."
  },
  {
   "property": "C67",
   "status": "proved",
   "theorems": [
    "C67_accepted_exactly",
    "C67_signature_binds_document",
    "C67_other_software_refused"
   ],
   "note": "Equivalence of nitro_attest with a declarative description, over every world of CBOR values, certificates and signatures; the header condition is stated as the code has it (see C68)."
  },
  {
   "property": "C68",
   "status": "partial",
   "theorems": [
    "C68_algorithm_partial",
    "C68_pcrs_partial",
    "C68_form_refuted"
   ],
   "note": "Refuted: CoseSign1::Valid returns an error converted to bool (true) when the header has no two integers, so a header without an algorithm is accepted; PCR numbers are truncated to 32 bits, so PCR 2^32 counts as PCR 0. Proved: the signature is always checked as ECDSA over SHA-384 with 96 bytes, two leading integers must say ES384, all PCR numbers that fit 32 bits are below 32."
  },
  {
   "property": "C69",
   "status": "partial",
   "theorems": [
    "C69_answered_partial",
    "C69_answered_refuted"
   ],
   "note": "Refuted: a declared string length of 2^63 or more makes resize throw before any signature is checked. Proved: evidence without such lengths is always answered."
  },
  {
   "property": "C70",
   "status": "proved",
   "theorems": [
    "C70_one_database",
    "C70_answers_of_rolled_back_replicas",
    "C70_same_effects",
    "C70_same_databases",
    "C70_no_entry_left_out"
   ],
   "note": "For groups that form one hash-collision-free history and change only between memberships whose quorums overlap (gchanges_overlap; a fixed membership is one case, a voter that comes and goes another); the x_group_moves example has a voter leave and come back; at most super_majority replicas put back (C19_bound_is_tight, C71_bound_is_tight show that the bound is needed). A call that crashes a replica has no effect in the model. Liveness is not claimed."
  },
  {
   "property": "C71",
   "status": "proved",
   "theorems": [
    "C71_wrong_guesses_bounded",
    "C71_one_store",
    "C71_data_only_for_the_pin"
   ],
   "note": "SVR2 store with any parser of requests; row integrity failures (DB2.v's i_vok = false) excluded. Same assumptions as C70. That a group starts from a store left by some history of requests is assumed (reachable2)."
  },
  {
   "property": "C72",
   "status": "proved",
   "theorems": [
    "C72_each_answer_has_a_place",
    "C72_one_entry_one_request",
    "C72_one_entry_one_request_of_anyone",
    "C72_one_request_one_entry",
    "C72_place_after_all_that_ran",
    "C72_order_fits_time"
   ],
   "note": "The condition that replicas put back never led is needed: C72_leader_put_back shows one entry answering two requests when the leader itself is put back (finding for a host that can restore a leader's memory, although super_majority allows for one replica put back)."
  },
  {
   "property": "C73",
   "status": "proved",
   "theorems": [
    "C73_logs_match",
    "C73_leader_has_its_terms_entries"
   ],
   "note": "The condition that replicas put back never led is needed: C73_leader_put_back."
  },
  {
   "property": "C74",
   "status": "proved",
   "theorems": [
    "C74_one_creation",
    "C74_one_group",
    "C74_joins_through_others",
    "C74_choice"
   ],
   "note": "All hosts and their Redis as one machine; at most one creation, one group, through whom hosts join."
  },
  {
   "property": "C75",
   "status": "partial",
   "theorems": [
    "C75_can_still_form_refuted",
    "C75_lost_answer_refuted",
    "C75_stuck_forever",
    "C75_can_get_in_partial"
   ],
   "note": "Refuted: the lock for creating a group is never released, so a host that stops between taking it and being shown as a member, or a lost answer of Redis, keeps all hosts out for ever. Proved: a new host can get in when the lock is free or Redis shows a member at another address."
  },
  {
   "property": "C76",
   "status": "proved",
   "theorems": [
    "C76_retry_means_not_run",
    "C76_unavailable_means_not_run",
    "C76_run_at_most_once",
    "C76_unavailable_codes"
   ],
   "note": "For groups that change only between memberships whose quorums overlap (gchanges_overlap). 'served once' (each forwarded request reaches a leader at most once) is what the channels between enclaves give (C38, C46), as long as the leader is not put back; C76_needs_requests_served_once shows that without it a request answered 'try again' can be run. The asked replica must not have been put back."
  },
  {
   "property": "C77",
   "status": "proved",
   "theorems": [
    "C77_wrong_credentials",
    "C77_over_the_limit",
    "C77_only_for_the_checked_user",
    "C77_relayed_in_order",
    "C77_one_at_a_time",
    "C77_client_closed_once",
    "C77_closed_unavailable",
    "C77_closed_normal",
    "C77_error_closes",
    "C77_credentials"
   ],
   "note": "Deadlines are failing reads and writes. That the rate limiter is an open gate when Redis fails (rate.go:57-61) is shown in x_retry; it is stated as such in the code."
  },
  {
   "property": "C78",
   "status": "partial",
   "theorems": [
    "C78_200_means_no_error",
    "C78_deleted2_partial",
    "C78_nothing_restored2_partial",
    "C78_deleted4_partial",
    "C78_never_deleted3",
    "C78_never_deleted5",
    "C78_deleted3_refuted",
    "C78_deleted5_refuted"
   ],
   "note": "Proved for SVR2 and SVR4 (C78_deleted2_partial, C78_nothing_restored2_partial, C78_deleted4_partial), with the bytes the host sends ([34; 0], SVR2's Request{delete:{}}) read by each store's own parser; C78_200_means_no_error ties the 200 to the enclave's answer. Refuted for SVR3, which reads these bytes as a query, and for SVR5, which reads them as an empty request that is logged and skipped: the host is told 'done' and answers 200, and nothing is removed (C78_deleted3_refuted, C78_deleted5_refuted; C78_never_deleted3/5: in no state). The other hypotheses (at most super_majority replicas put back, changes only between memberships whose quorums overlap, no hash collision) are those of C70."
  },
  {
   "property": "C79",
   "status": "proved",
   "theorems": [
    "C79_written_is_read2",
    "C79_written_is_read3",
    "C79_written_is_read4",
    "C79_written_is_read5",
    "C79_applied_as_sent2",
    "C79_applied_as_sent3",
    "C79_applied_as_sent4",
    "C79_applied_as_sent5",
    "C79_log_is_the_request"
   ],
   "note": "Round trips and acceptance for all four protocols. Unknown fields are dropped by the model; the library keeps them and reads them back as unknown."
  },
  {
   "property": "C80",
   "status": "partial",
   "theorems": [
    "C80_no_deadlock_partial",
    "C80_some_thread_goes_on_partial",
    "C80_messages_are_finished_partial",
    "C80_locks_exclude",
    "C80_no_deadlock_refuted"
   ],
   "note": "Refuted (C80_no_deadlock_refuted): core.cc:1331-1337 tests sent_response and then exchanges it; if another callback of the same transfer sets it in between (for example ResetPeer on another thread), a callback that SendE2ETransaction runs at once goes on to lock raft_.mu, which its thread holds, and the enclave hangs for good. Proved for all executions in which no exchange is lost that way (raced s = false): no deadlock, some thread can always go on, and every message is finished."
  },
  {
   "property": "C81",
   "status": "partial",
   "theorems": [
    "C81_answered_at_most_once_partial",
    "C81_only_what_was_asked",
    "C81_never_forgotten_partial",
    "C81_no_answer_in_time",
    "C81_applied",
    "C81_join_answered_once_refuted",
    "C81_join_never_forgotten_refuted"
   ],
   "note": "Proved for every kind of request but joining. Refuted for joining: a join that was answered with a timeout goes on when the peer connects again and is answered a second time (C81_join_answered_once_refuted); a join that waits for a connection is forgotten when another one arrives, and is never answered (C81_join_never_forgotten_refuted). An entry that was applied before its place was known is the business of C60; how long timeouts take that of C45 and C46."
  },
  {
   "property": "C82",
   "status": "proved",
   "theorems": [
    "C82_accepted_exactly",
    "C82_own_identity",
    "C82_other_enclave_refused",
    "C82_same_build_accepted",
    "C82_minimum_holds",
    "C82_simulated"
   ],
   "note": "Open Enclave's functions, rapidjson, protobuf and gmtime_r are arbitrary functions; for gmtime_r its fields are assumed to be in range. An evaluation number below 0 is the business of C83."
  },
  {
   "property": "C83",
   "status": "partial",
   "theorems": [
    "C83_answered_partial",
    "C83_form_partial",
    "C83_form_refuted"
   ],
   "note": "Refuted: custom claims with no claim are read beyond their end, TCB info that is not an object fails an assertion, a time beyond the calendar leaves the date uninitialised, and a negative evaluation number counts as one above all limits (C83_form_refuted). The first two need an enclave of the same build or Intel to deviate; the third only the host. Proved under conditions that exclude these."
  },
  {
   "property": "C84",
   "status": "partial",
   "theorems": [
    "C84_never_stuck_partial",
    "C84_never_stuck_if_it_fits",
    "C84_never_stuck_if_replicas_keep_up",
    "C84_never_stuck_refuted",
    "C84_never_stuck_on_socket_refuted"
   ],
   "note": "Refuted: the goroutine that takes outputs out calls ResetPeer, which waits for a worker, while all workers wait for it (client.go:141, 169, 203). Proved: every block is of this kind; none as long as replicas keep up or what calls put out fits into the channel."
  },
  {
   "property": "C85",
   "status": "partial",
   "theorems": [
    "C85_own_status",
    "C85_runs_at_most_once",
    "C85_outputs",
    "C85_all_return_partial",
    "C85_all_return_refuted"
   ],
   "note": "Refuted: when the connection is lost, callers that wait for an answer are never released (socket.go:193-201, 243). Proved: the rest, and that all calls return a status while the connection stands. Ids are unique for fewer than 2^64 calls."
  },
  {
   "property": "C86",
   "status": "partial",
   "theorems": [
    "C86_one_core",
    "C86_stays",
    "C86_no_race",
    "C86_restart",
    "C86_start_reported_partial",
    "C86_start_reported_refuted"
   ],
   "note": "Refuted: if the created enclave's svr2_init fails, the host's Init calls Close, which waits for the lock Init holds (sgx.go:128-129, 155-159, 215). The rest is proved."
  },
  {
   "property": "C87",
   "status": "proved",
   "theorems": [
    "C87_membership_is_that_of_the_log",
    "C87_votes_and_quorums_by_the_log",
    "C87_same_commit_same_membership"
   ],
   "note": "For the replica groups of C27: every history of calls, deliveries and membership changes with overlapping quorums; same membership at the same commit index for at most super_majority replicas put back."
  },
  {
   "property": "C88",
   "status": "proved",
   "theorems": [
    "C88_what_stops_a_replica",
    "C88_no_stop_unless_put_back"
   ],
   "note": "The histories are those of C27 (memberships' quorums overlap, no two chains clash). Both exceptions are shown to be real by Examples. That the core never asks for a reset of the connection to itself (core.cc, on a new connection of another peer) is read from the code, not proved. The comment in HandleAppendResponse that its else branch is unreachable does not hold: an index past the end passes validation, and a leader that was put back does abort there, as the next comment intends."
  },
  {
   "property": "C89",
   "status": "partial",
   "theorems": [
    "C89_exit_after_leaving_refuted",
    "C89_exit_after_both_answers_partial",
    "C89_removal_leaves_out_exactly_one",
    "C89_nobody_removes_itself",
    "C89_last_replica_never_leaves"
   ],
   "note": "Refuted: the host ends its loop when both requests were answered, also with an error status (SendTransaction returns none for it), contrary to its comment that it retries until both succeed; so it exits although the leader is unknown, or another membership change is under way, and the replica stays a member. Refuted as well: the only member of a group never gives up leading, so its host never exits. Proved: when the loop ends; a removal that is not refused is an entry of the leader's log that sets its membership without exactly the replica that asked; nobody removes itself. That a status OK of the removal is sent only after the leader has applied that entry is the callback of AddLogTransaction, as in C30."
  },
  {
   "property": "C90",
   "status": "proved",
   "theorems": [
    "C90_handed_to_one_with_all_entries",
    "C90_takes_no_requests_meanwhile"
   ],
   "note": "All histories with overlapping memberships, replicas put back included, as long as no two logs collide in a hash. If the leader's log is empty (it could not even append the entry of its own term) there is nothing to hold. That the voter still holds the entries when the message arrives is not claimed: it may have been put back."
  },
  {
   "property": "C91",
   "status": "partial",
   "theorems": [
    "C91_all_random_or_error_partial",
    "C91_enough_is_enough_partial",
    "C91_goes_on_with_random_partial",
    "C91_unlooked_refuted",
    "C91_simulated_nitro_refuted",
    "C91_simulated_nitro_overruns_refuted",
    "C91_simulated_nitro_overruns_by_failures_refuted"
   ],
   "note": "Proved for the socket environment (simulated or rdrand), the Nitro chip and SGX, and for the callers that look at the result. Refuted (C91_simulated_nitro_refuted, C91_simulated_nitro_overruns_refuted, C91_simulated_nitro_overruns_by_failures_refuted): the simulated Nitro environment does not move its pointer after a short answer, so the end of the buffer stays unwritten and the result is OK; a failure is compared as unsigned, so it is not seen, and each one makes it write one byte more behind the buffer. Refuted (C91_unlooked_refuted): the key of the Merkle tree and the id of a replication are used even if drawing them failed; they are then what was in memory."
  },
  {
   "property": "C92",
   "status": "proved",
   "theorems": [
    "C92_counted_by_innermost",
    "C92_all_time_is_counted"
   ],
   "note": "All nestings and interleavings; the clock may wrap. Equality modulo 2^64, the counters' width. C92_all_time_is_counted: the sections' counters add up to the elapsed time."
  },
  {
   "property": "C93",
   "status": "proved",
   "theorems": [
    "C93_sums_are_the_counts",
    "C93_small_counts_are_exact",
    "C93_sums_never_fall"
   ],
   "note": "Error at most one part in 2^24 because the host writes 32-bit floats; exact below 2^24. The keys of counters.h are checked to be distinct."
  },
  {
   "property": "C94",
   "status": "partial",
   "theorems": [
    "C94_what_is_not_checked_partial",
    "C94_with_the_peer_check_partial",
    "C94_accepted_but_stops_refuted",
    "C94_accepted_but_mute_refuted",
    "C94_default"
   ],
   "note": "False of the code: configurations with a negative or zero peer buffer size, or a metric poll or liveness period of zero, are accepted; the host then panics or never queues a message (C94_accepted_but_stops_refuted, C94_accepted_but_mute_refuted). PeerConfig's validator exists but is never called. C94_what_is_not_checked_partial says exactly which accepted configurations fail; C94_with_the_peer_check_partial that the missing checks suffice; C94_default that the default is accepted and works from two processors on and is refused on one."
  },
  {
   "property": "C95",
   "status": "partial",
   "theorems": [
    "C95_hidden_through_a_pointer_partial",
    "C95_hidden_with_a_value_receiver_partial",
    "C95_password_is_logged_refuted",
    "C95_pointer_to_the_whole_refuted"
   ],
   "note": "False of the code: the configuration is logged by value, and the String method that leaves out the password has a pointer receiver, so it is not used; C95_password_is_logged_refuted shows the password in the line, whatever it is, and C95_pointer_to_the_whole_refuted that logging a pointer would not help. The section printed through a pointer to it, or the whole had the method a value receiver, does not tell it (the two _partial theorems)."
  },
  {
   "property": "C96",
   "status": "proved",
   "theorems": [
    "C96_waits_double",
    "C96_attempts_are_spaced",
    "C96_given_up_only_if_silent",
    "C96_silent_peer_is_given_up"
   ],
   "note": "Waits below 2^62 ns. C96_silent_peer_is_given_up needs a positive least wait."
  },
  {
   "property": "C97",
   "status": "partial",
   "theorems": [
    "C97_user_agent_labels_partial",
    "C97_plain_user_agents",
    "C97_unexpected_platform_refuted",
    "C97_bounded_by_the_methods_partial",
    "C97_methods_refuted",
    "C97_status_is_what_was_sent_partial"
   ],
   "note": "False of the code: the method, any token the client sends, is a label, also of requests without valid credentials (C97_methods_refuted: 2^n counters from methods of n characters); and the platform that 'should never happen' does, by a letter that the pattern folds to s and ToLower does not (C97_unexpected_platform_refuted). Proved: the user agent makes one of five labels, plain user agents are counted for exactly the platform they name, all else is bounded given the methods, and the status counted is the one sent. net/http's limit on the size of a header is not modelled; it is not what bounds the methods."
  },
  {
   "property": "C98",
   "status": "partial",
   "theorems": [
    "C98_let_in_exactly_within_the_limit_partial",
    "C98_no_more_than_the_limit_partial",
    "C98_other_users_do_not_matter",
    "C98_no_limit_without_redis_refuted",
    "C98_let_in_after_the_wait",
    "C98_told_too_short_refuted"
   ],
   "note": "Proved for histories in which Redis answers (the two _partial theorems), for any users and expiries. False of the code: if Redis does not answer, requests go on unchecked (C98_no_limit_without_redis_refuted, deliberate in the code); and the client is told the wait cut to whole seconds, so who does as told may be refused again (C98_told_too_short_refuted; after the uncut time they are let in, C98_let_in_after_the_wait). The library's script is not in /repo: it is modelled as published, with exact arithmetic. A rate of zero, which the configuration accepts, is left out."
  },
  {
   "property": "C99",
   "status": "partial",
   "theorems": [
    "C99_check_stops",
    "C99_fatal_stops_exactly_if_logged_partial",
    "C99_fatal_stops_partial",
    "C99_faults_for_ever_refuted",
    "C99_started_but_deaf_refuted"
   ],
   "note": "False of the code: below FATAL (NONE is accepted from the host, negative levels too) fatal log statements are skipped with what they evaluate (C99_faults_for_ever_refuted, C99_started_but_deaf_refuted). Proved: CHECK always stops; exactly when a fatal statement stops, for every history of settings."
  },
  {
   "property": "C100",
   "status": "partial",
   "theorems": [
    "C100_level_set_for_both_partial",
    "C100_unknown_level_changes_nothing",
    "C100_max_is_half_set_refuted",
    "C100_half_set_refuted"
   ],
   "note": "False of the code: the host's level is set first and not undone (C100_max_is_half_set_refuted, C100_half_set_refuted). Proved for all names but MAX when the enclave is reached, with which messages are then sent and written."
  },
  {
   "property": "C101",
   "status": "partial",
   "theorems": [
    "C101_answer_is_the_enclaves",
    "C101_asked_at_most_once",
    "C101_success_means_done_partial",
    "C101_nonsense_is_not_sent",
    "C101_pings_are_reported_partial",
    "C101_failed_pings_succeed_refuted",
    "C101_counters_are_the_enclaves_partial",
    "C101_gauges_are_counters_refuted",
    "C101_status_panics",
    "C101_event_log_is_the_enclaves"
   ],
   "note": "False of the code: pingPeer ends with success though every ping failed (C101_failed_pings_succeed_refuted) and metrics prints the counters again as gauges (C101_gauges_are_counters_refuted). The rest is proved for every enclave and network."
  },
  {
   "property": "C102",
   "status": "proved",
   "theorems": [
    "C102_one_answer",
    "C102_live_is_recent",
    "C102_silence_is_noticed",
    "C102_answers_are_noticed",
    "C102_not_live_at_first",
    "C102_ready_from_joining_to_terminating",
    "C102_ready_does_not_follow_life"
   ],
   "note": "Time is an integer and no time passes between a tick or an answer and what the host does on it; the service's context is not cancelled."
  },
  {
   "property": "C103",
   "status": "partial",
   "theorems": [
    "C103_read_whole_or_not_partial",
    "C103_without_stdin_refuted",
    "C103_directory_is_its_own",
    "C103_directory_is_gone_partial",
    "C103_links_stay_refuted"
   ],
   "note": "False of the code with descriptor 0 free (fd <= 0 is taken for an error and leaks: C103_without_stdin_refuted) and for links, pipes and sockets in a temporary directory (C103_links_stay_refuted). Proved otherwise, with an exact condition for removal."
  },
  {
   "property": "C104",
   "status": "partial",
   "theorems": [
    "C104_started_means_verified_partial",
    "C104_starts_unverified_refuted",
    "C104_waited_for_partial",
    "C104_not_waited_for_minutes_refuted",
    "C104_no_answer_is_tried_again_partial",
    "C104_error_page_is_not_tried_again_refuted"
   ],
   "note": "False of the code below the level FATAL (C104_starts_unverified_refuted), beyond 31 seconds (C104_not_waited_for_minutes_refuted) and for error pages (C104_error_page_is_not_tried_again_refuted: curl without --fail). Proved otherwise as an equivalence."
  },
  {
   "property": "C105",
   "status": "partial",
   "theorems": [
    "C105_each_user_once_partial",
    "C105_large_counts_refuted",
    "C105_least_busy_host_partial",
    "C105_all_on_one_host_refuted",
    "C105_greatest_and_sums_partial",
    "C105_no_restore_minimum_refuted",
    "C105_restore_is_taken_for_create_refuted"
   ],
   "note": "False of the code: C105_large_counts_refuted, C105_all_on_one_host_refuted (the host is returned after dialling), C105_no_restore_minimum_refuted and C105_restore_is_taken_for_create_refuted (create_min is written where restore_min is meant). The rest is proved."
  },
  {
   "property": "C106",
   "status": "partial",
   "theorems": [
    "C106_evidence_is_fresh",
    "C106_started_means_verified_partial",
    "C106_error_page_stops_it",
    "C106_report_is_the_firmwares_partial",
    "C106_device_zero_refuted",
    "C106_passing_failure_stops_it_refuted"
   ],
   "note": "Evidence is fresh and made for its data, for a TPM that leaves no part of a quote empty; the enclave goes on after the start exactly if each step works and its own evidence verifies (with fatal messages logged, see C99); a report is one the firmware made without error over the hash given. Refuted: an error page of the certificate server, whose status is not looked at, is taken for the certificate and stops the enclave, nothing is tried again; and a SEV device that opens as descriptor 0 is taken for one that does not open."
  },
  {
   "property": "C107",
   "status": "partial",
   "theorems": [
    "C107_always_a_name",
    "C107_users_differ",
    "C107_status_says_partial",
    "C107_done_is_said_partial",
    "C107_status_means_an_answer_partial",
    "C107_wrong_pin_succeeds_refuted",
    "C107_failed_load_test_succeeds_refuted",
    "C107_unknown_succeeds_refuted"
   ],
   "note": "Names of users are proved for every hash of 32 bytes; the status is exact for backup and expose. Refuted: restore leaves status 0 for any answer, a wrong PIN included (delete likewise for an answer of another kind), a load test in which every backup fails leaves status 0, and so does a subcommand there is not; no subcommand at all panics."
  },
  {
   "property": "C108",
   "status": "partial",
   "theorems": [
    "C108_answer_is_to_the_request_partial",
    "C108_answers_in_order",
    "C108_answer_to_another_refuted"
   ],
   "note": "Proved for every host: requests reach the enclave in order, answers come in order; while every call was answered, each answer is that to its request. Refuted: after a message that does not open, the call fails but the session goes on, and the next call returns the answer to the request before."
  },
  {
   "property": "C109",
   "status": "partial",
   "theorems": [
    "C109_db4_and_db5_leave_nothing_partial",
    "C109_secrets_are_kept",
    "C109_db2_leaves_nothing_partial",
    "C109_db2_loaded_rows_stay_refuted",
    "C109_db3_removed_keys_stay_refuted",
    "C109_zeroes_exactly"
   ],
   "note": "Proved for DB4 (rows and rotations) and DB5 for every history; for DB2 as long as no rows are loaded. Refuted for DB3, which erases rows without clearing the key, and for DB2's rows loaded from another replica, whose copy on the stack is not cleared. Copies outside rows are not modelled."
  },
  {
   "property": "C110",
   "status": "proved",
   "theorems": [
    "C110_proof_is_for_one_session",
    "C110_valid_proof_is_accepted"
   ],
   "note": "For any group with the two stated laws; the collision is explicit. Sha512 hashes the concatenation of its arguments (sha.cc), as in DB4.v."
  }
 ]
}