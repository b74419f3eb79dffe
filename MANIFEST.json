{
 "claims": [
  {
   "property": "C01",
   "status": "proved",
   "theorems": [
    "C01_OrderBytes",
    "C01_OrderSubspace",
    "C01_OrderTimestamp",
    "C01_OrderPath",
    "C01_OrderSubspace_agrees"
   ],
   "note": "All four comparators; OrderSubspace through its hex rendering."
  },
  {
   "property": "C02",
   "status": "proved",
   "theorems": [
    "C02_membership",
    "C02_validity",
    "C02_invalid_is_empty",
    "C02_valid_has_start"
   ],
   "note": "Generic in any total order; instances for the three dimensions follow with C01."
  },
  {
   "property": "C03",
   "status": "proved",
   "theorems": [
    "C03_intersection",
    "C03_nonempty"
   ],
   "note": "Set intersection for all ranges; reported exactly when a common value exists for valid ranges."
  },
  {
   "property": "C04",
   "status": "proved",
   "theorems": [
    "C04_sound",
    "C04_complete"
   ],
   "note": "Soundness for all ranges, completeness for valid child ranges."
  },
  {
   "property": "C05",
   "status": "proved",
   "theorems": [
    "C05_membership",
    "C05_validity",
    "C05_intersection",
    "C05_intersection_nonempty"
   ],
   "note": "Membership, validity, intersection, non-emptiness."
  },
  {
   "property": "C06",
   "status": "proved",
   "theorems": [
    "C06_IsPathPrefixed",
    "C06_PrefixesOf",
    "C06_CommonPrefix"
   ],
   "note": "IsPathPrefixed, PrefixesOf, CommonPrefix."
  },
  {
   "property": "C07",
   "status": "proved",
   "theorems": [
    "C07_max32_roundtrip",
    "C07_max32_width",
    "C07_max32_order",
    "C07_max32_injective",
    "C07_max64_roundtrip",
    "C07_max64_width",
    "C07_max64_injective",
    "C07_bigint_roundtrip",
    "C07_bigint_order"
   ],
   "note": "Byte order equals numeric order is proved for the fixed-width encodings (EncodeIntMax32 for one maximum, BigIntToBytes); EncodeIntMax64 has a variable width, for it round trip, width and injectivity are proved."
  },
  {
   "property": "C08",
   "status": "partial",
   "theorems": [
    "C08_roundtrip",
    "C08_length",
    "C08_prefix_free",
    "C08_IsValidPath",
    "C08_large_limits_refuted"
   ],
   "note": "Round trip with arbitrary trailing bytes, announced length, prefix freedom, IsValidPath; limits below 2^32 as the codec assumes. IsValidPath is exact for limits below 2^63; refuted above, where no path is accepted."
  },
  {
   "property": "C09",
   "status": "proved",
   "theorems": [
    "C09_roundtrip",
    "C09_unique",
    "C09_time_order"
   ],
   "note": "Round trip, injectivity and timestamp order of database keys for all positions within the limits."
  },
  {
   "property": "C10",
   "status": "proved",
   "theorems": [
    "C10_roundtrip",
    "C10_truncated"
   ],
   "note": "Round trip, and on every proper prefix of an encoding DecodeValues panics, as the statement says, and never returns a value."
  },
  {
   "property": "C11",
   "status": "partial",
   "theorems": [
    "C11_roundtrip_partial",
    "C11_roundtrip_refuted",
    "C11_shipped_schemes_hang",
    "C11_shipped_digest_panics",
    "C11_path_stream_refuted"
   ],
   "note": "Proved for one-shot arrival with any fixed-width style schemes; refuted when bytes arrive one by one (panic), and for the shipped schemes decoding never terminates."
  },
  {
   "property": "C12",
   "status": "partial",
   "theorems": [
    "C12_ends_exactly",
    "C12_changes_exactly",
    "C12_bounds_extensions",
    "C12_nothing_above",
    "C12_safe_partial",
    "C12_ends_process_refuted",
    "C12_changes_argument_refuted",
    "C12_result_within_limits",
    "C12_result_over_limit_refuted"
   ],
   "note": "Bounds proved for all paths within the limits. Never ending the process / never changing the argument are refuted at the length limits and proved strictly below them. The exact conditions for both are proved."
  },
  {
   "property": "C13",
   "status": "partial",
   "theorems": [
    "C13_ends_exactly",
    "C13_least_greater_partial",
    "C13_ends_process_refuted",
    "C13_result_over_limit_refuted"
   ],
   "note": "Least greater path proved whenever a value is returned; the exact situations in which the process can end are delimited; refuted: log.Fatal although a successor exists, and a result over the limits for MaxComponentCount = 0. The exact condition for the process ending is proved."
  },
  {
   "property": "C14",
   "status": "proved",
   "theorems": [
    "C14_SuccessorSubspaceId",
    "C14_FixedWidth",
    "C14_FixedWidth_none"
   ],
   "note": "Least greater byte string; fixed-width successor is +1; nothing exactly for all-255."
  },
  {
   "property": "C15",
   "status": "partial",
   "theorems": [
    "C15_exact_partial",
    "C15_wrong_start_refuted",
    "C15_ends_process_refuted",
    "C15_exactly"
   ],
   "note": "Exact for areas with paths strictly below the length limits; refuted at the limits (start path overwritten, process ended). C15_exactly: the conversion is right exactly for the areas outside those two cases."
  },
  {
   "property": "C16",
   "status": "partial",
   "theorems": [
    "C16_nil",
    "C16_exact_partial",
    "C16_drops_positions_refuted",
    "C16_adds_positions_refuted",
    "C16_exactly"
   ],
   "note": "nil exactly for disjoint areas; result exact when the first area names a subspace; refuted when it is an any-subspace area (flag dropped). C16_exactly: an exact condition for the result to be right."
  },
  {
   "property": "C17",
   "status": "proved",
   "theorems": [
    "C17_sound",
    "C17_complete"
   ],
   "note": "Sound and complete."
  },
  {
   "property": "C18",
   "status": "proved",
   "theorems": [
    "C18_membership",
    "C18_FullArea",
    "C18_SubspaceArea"
   ],
   "note": "Full."
  },
  {
   "property": "C19",
   "status": "partial",
   "theorems": [
    "C19_roundtrip_partial",
    "C19_memory_partial",
    "C19_behind_reference_refuted",
    "C19_reference_overwritten",
    "C19_reference_changed_refuted",
    "C19_length_refuted",
    "C19_no_common_prefix_refuted",
    "C19_length_exactly",
    "C19_length_never",
    "C19_ends_exactly"
   ],
   "note": "Value-level round trip proved with trailing bytes; refuted: reference path overwritten by append, components taken from behind the reference in its array, announced length wrong, process ends without common prefix. The announced length is too small for every pair of paths. See also C88."
  },
  {
   "property": "C20",
   "status": "partial",
   "theorems": [
    "C20_roundtrip_partial",
    "C20_no_common_prefix_refuted",
    "C20_slow_arrival_refuted"
   ],
   "note": "Round trip proved for entries whose paths share the first component, once the encoding has arrived. Refuted otherwise: without a common first component the process ends (for every such pair); slow arrival can panic."
  },
  {
   "property": "C21",
   "status": "partial",
   "theorems": [
    "C21_spelt",
    "C21_roundtrip_partial",
    "C21_closed_times_refuted",
    "C21_stream_refuted",
    "C21_full_refuted",
    "C21_adjacent_subspaces_refuted"
   ],
   "note": "Round trip proved in a narrow case only. Refuted: no bytes decode to a non-empty closed time range; no stream decodes to a non-empty range at all; the full range ends the process; adjacent subspace ranges are rejected. C21_spelt: exactly which bytes of a slice are accepted, and as which range."
  },
  {
   "property": "C22",
   "status": "partial",
   "theorems": [
    "C22_exactly",
    "C22_any_never",
    "C22_spelt",
    "C22_roundtrip_partial",
    "C22_stream_partial",
    "C22_empty_path_refuted",
    "C22_any_subspace_refuted",
    "C22_any_subspace_stream_refuted",
    "C22_late_start_refuted",
    "C22_late_end_refuted",
    "C22_subspace_refuted",
    "C22_length_refuted",
    "C22_length",
    "C22_stream_start_refuted"
   ],
   "note": "Round trip proved (bytes and stream) under conditions on subspaces, paths and times. Refuted: empty outer path (Fatal for every inner area), any subspace (never decoded), late start, late end in an open area, encoded subspace, length function, stream start difference of 256 or more. C22_spelt: exactly which bytes of a slice are accepted, and as which area. C22_length says by how much EncodeAreaInAreaLength is too small. C22_exactly: an exact condition on the times and the outer path when both areas name a subspace."
  },
  {
   "property": "C23",
   "status": "partial",
   "theorems": [
    "C23_tokens",
    "C23_decoders",
    "C23_pruned_twice_refuted",
    "C23_in_order",
    "C23_nothing_lost",
    "C23_woken_partial",
    "C23_steps_bounded",
    "C23_unnoticed_refuted",
    "C23_erased_refuted",
    "C23_jam_refuted",
    "C23_wedge_refuted",
    "C23_sequential",
    "C23_realised"
   ],
   "note": "Safety proved for all schedules: returned bytes are in stream order, long enough, nothing lost; every run of internal steps is finite. A reader registered before the bytes are taken in is served. Liveness in general refuted by four schedules (unnoticed bytes, erased request, producer blocked on its own channel, reader blocked holding the lock). The sequential reader over which the decoders are modelled is justified: any run of the machine in which nothing is pruned beyond the last answer gives the answers of the sequential reader under some schedule, and every sequential run is a run of the machine (C23_sequential, C23_realised); hence every stream decoder except that of sent payloads gives against the goroutine exactly the results of its sequential model (C23_decoders). Sent payloads prune twice, and the second pruning takes bytes that the sequential model leaves (C23_pruned_twice_refuted). C23_tokens: the channel of tokens holds exactly those put and not yet taken."
  },
  {
   "property": "C24",
   "status": "partial",
   "theorems": [
    "C24_one_live_entry_partial",
    "C24_get_partial",
    "C24_several",
    "C24_one_live_entry_refuted"
   ],
   "note": "Proved for every history of Set, IngestEntry and restart whose paths are non-empty and strictly below the component-length, count and total-length limits, any subspaces, any digests with different file names; Get then returns that entry or none. Missing: paths that reach a limit, refuted by a component of the maximal length (the index node is displaced, so several entries become live at one place)."
  },
  {
   "property": "C25",
   "status": "partial",
   "theorems": [
    "C25_no_newer_above_partial",
    "C25_no_newer_above_refuted"
   ],
   "note": "No live entry below a strictly newer one, for every history of Set, IngestEntry and restart whose paths are non-empty and strictly below the component-length, count and total-length limits, any subspaces, any digests with different file names. Missing: equal timestamps, refuted (an equally old descendant survives)."
  },
  {
   "property": "C26",
   "status": "partial",
   "theorems": [
    "C26_index_agrees_partial",
    "C26_restart_partial",
    "C26_index_agrees_refuted"
   ],
   "note": "Index and database agree and restart keeps the live entries, for every history of Set, IngestEntry and restart whose paths are non-empty and strictly below the component-length, count and total-length limits, any subspaces, any digests with different file names. Refuted at the component-length limit."
  },
  {
   "property": "C27",
   "status": "partial",
   "theorems": [
    "C27_decision_partial",
    "C27_decision_refuted"
   ],
   "note": "Exact decision, and refusal leaves entries, counts, payloads and lock unchanged, for every history of Set, IngestEntry and restart whose paths are non-empty and strictly below the component-length, count and total-length limits, any subspaces, any digests with different file names. Refuted at the component-length limit (an older entry is accepted over a newer one)."
  },
  {
   "property": "C28",
   "status": "partial",
   "theorems": [
    "C28_effect_partial",
    "C28_effect_refuted"
   ],
   "note": "Exact effect and exact returned list, for every history of Set, IngestEntry and restart whose paths are non-empty and strictly below the component-length, count and total-length limits, any subspaces, any digests with different file names. Refuted at the component-length limit."
  },
  {
   "property": "C29",
   "status": "partial",
   "theorems": [
    "C29_read_your_writes_partial",
    "C29_read_your_writes_refuted"
   ],
   "note": "Get and GetPayload after Set, for every history of Set, IngestEntry and restart whose paths are non-empty and strictly below the component-length, count and total-length limits, any subspaces, any digests with different file names. Refuted at the component-length limit."
  },
  {
   "property": "C30",
   "status": "partial",
   "theorems": [
    "C30_counts_partial",
    "C30_payloads_partial",
    "C30_payloads_refuted"
   ],
   "note": "Counts at least the number of live carriers; payloads written by Set remain readable while live, for every history of Set, IngestEntry and restart whose paths are non-empty and strictly below the component-length, count and total-length limits, any subspaces, any digests with different file names. Refuted when a digest is offered in upper case (same file name)."
  },
  {
   "property": "C31",
   "status": "partial",
   "theorems": [
    "C31_converge_partial",
    "C31_live_is_maximal_partial",
    "C31_converge_refuted"
   ],
   "note": "Same live entries for any two histories offering the same authorised entries, and an exact description of them, for every history of Set, IngestEntry and restart whose paths are non-empty and strictly below the component-length, count and total-length limits, any subspaces, any digests with different file names, without timestamp ties at comparable places. Ties refuted."
  },
  {
   "property": "C32",
   "status": "partial",
   "theorems": [
    "C32_reopens_partial",
    "C32_one_live_entry_partial",
    "C32_index_agrees_partial",
    "C32_damage_partial",
    "C32_offer_again_partial",
    "C32_offer_again_refuted",
    "C32_payload_refuted",
    "C32_count_refuted",
    "C32_both_lost_refuted"
   ],
   "note": "For histories with crashes between any two durable writes, over paths strictly below the limits: the store reopens, one live entry per place, index and database agree, and exactly what a crash can damage is delimited. Refuted: re-offering does not restore the uninterrupted state, a live payload can be lost, reference counts go wrong."
  },
  {
   "property": "C33",
   "status": "partial",
   "theorems": [
    "C33_every_area",
    "C33_list_partial",
    "C33_exact_partial",
    "C33_large_count_refuted",
    "C33_open_end_refuted",
    "C33_any_subspace_refuted",
    "C33_closed_end_refuted",
    "C33_size_refuted"
   ],
   "note": "Proved with the end of the time range counted in and the size limit strict, as the code does; exact form proved without a size limit. Refuted: open end, any-subspace areas, closed end, size limit reached exactly. Refuted: a count limit of 2^63 or more lists nothing. C33_every_area says what is listed for every area."
  },
  {
   "property": "C34",
   "status": "partial",
   "theorems": [
    "C34_key_order",
    "C34_query_exact",
    "C34_live_partial",
    "C34_driver_partial",
    "C34_driver_refuted",
    "C34_rewritten_refuted"
   ],
   "note": "Exact for every tree shape ordered by Key.Order and for all ranges (the library's traversal order is an assumption of the model); in a store exactly the live positions. Refuted for EntryDriver.Query, which returns empty entries before the results; its exact result is proved. Refuted for a tree in which a key has been rewritten in place: other entries are missed."
  },
  {
   "property": "C35",
   "status": "partial",
   "theorems": [
    "C35_get_after_set",
    "C35_separate",
    "C35_erased",
    "C35_offset_partial",
    "C35_offset_exact",
    "C35_offset_refuted",
    "C35_shipped_names",
    "C35_foreign_digest_refuted",
    "C35_history"
   ],
   "note": "Get after Set, separation and Erase proved for digests with distinct file names. Offsets proved strictly below the length; refuted at the length. Refuted for digests that are not valid file names (differing only in letter case). Every name and offset: C35_offset_exact."
  },
  {
   "property": "C36",
   "status": "partial",
   "theorems": [
    "C36_no_first_part",
    "C36_whole_partial",
    "C36_rejected_partial",
    "C36_second_part",
    "C36_two_parts_refuted",
    "C36_never_stores",
    "C36_rest_never_stores",
    "C36_received",
    "C36_ingest_refuted"
   ],
   "note": "Receive at offset 0 stores exactly the payload or rejects without a trace (partial: offset 0 only); a second part at a positive offset loses the first part (refuted); IngestPayload never stores anything, even past its inverted test (proved for all inputs, refutes the claim). A later part without a first one panics (C36_no_first_part)."
  },
  {
   "property": "C37",
   "status": "partial",
   "theorems": [
    "C37_lock_free_partial",
    "C37_lock_free_refuted"
   ],
   "note": "Lock free after every history, for every history of Set, IngestEntry and restart whose paths are non-empty and strictly below the component-length, count and total-length limits, any subspaces, any digests with different file names. Refuted at the component-length limit (lock stays held, next call blocks for ever)."
  },
  {
   "property": "C38",
   "status": "partial",
   "theorems": [
    "C38_summarise_exactly",
    "C38_split_partition",
    "C38_split_total",
    "C38_split_half",
    "C38_split_progress_refuted",
    "C38_count_partial",
    "C38_xor",
    "C38_summarise_refuted",
    "C38_fingerprint_refuted"
   ],
   "note": "Partition, totality and the size of the older half proved for all contents. Refuted: progress with equal timestamps, summarising after a restart ends the process, the fingerprint is always empty. Count proved for stores not yet reopened. C38_summarise_exactly says which ranges are summarised."
  },
  {
   "property": "C39",
   "status": "partial",
   "theorems": [
    "C39_fresh_partial",
    "C39_fresh_refuted",
    "C39_life",
    "C39_independent",
    "C39_reported"
   ],
   "note": "Life cycle and independence proved for all histories in which no message is processed before it began. Freshness proved for up to 2^64 calls of Bind; the counter then wraps and handle 0 is returned again (refuted)."
  },
  {
   "property": "C40",
   "status": "partial",
   "theorems": [
    "C40_order_partial",
    "C40_guarantees_refuted",
    "C40_sleeping_receiver_refuted",
    "C40_full",
    "C40_absolve_partial",
    "C40_plead_refuted",
    "C40_account_partial",
    "C40_digits_refuted"
   ],
   "note": "Order and exactly-once proved for all histories and all schedules of the receiver in which no call panics or blocks. Refuted: messages leave without guarantees and the account wraps; Push panics while the receiver sleeps; a plea above the account raises it. The receivers are commented out in the messenger. C40_account_partial: what the account holds is what was added less what was spent, while nothing wraps. C40_digits_refuted: whether a byte is sent depends on how many decimal digits the account has."
  },
  {
   "property": "C41",
   "status": "partial",
   "theorems": [
    "C41_exactly",
    "C41_control_partial",
    "C41_bytes_distinct",
    "C41_control_refuted"
   ],
   "note": "Proved for absolve, plead, announce dropping and apologise with every logical channel and amount, all following bytes and all arrival schedules; issue guarantee keeps channel and amount. Missing: issue guarantee arrives with the kind of absolve, free always arrives as 'mine', the control channel is encoded as the reconciliation channel (refuted). C41_bytes_distinct: the bytes of any two control messages (all kinds, mine and theirs) determine the message, so the losses are the decoder's. C41_exactly says what every control message is told as."
  },
  {
   "property": "C42",
   "status": "partial",
   "theorems": [
    "C42_metadata",
    "C42_reply_payload",
    "C42_bind_payload_request_partial",
    "C42_send_entry_partial",
    "C42_send_payload_partial",
    "C42_send_entry_handle_refuted",
    "C42_data_refuted"
   ],
   "note": "Metadata and reply payload: full round trip for every schedule of arrival. Payload request and sent entry: round trip once everything has arrived, for entries as in C20 (sent entry only with offset 0 or the payload length and handles below 256 other than 2, 4, 8); payload only when alone. Refuted otherwise: handles from 256 on never arrive, inner offsets are not written, payload prunes following bytes, late bytes panic."
  },
  {
   "property": "C43",
   "status": "partial",
   "theorems": [
    "C43_exactly",
    "C43_pai_partial",
    "C43_pai_refuted",
    "C43_commitment_refuted"
   ],
   "note": "Bind fragments proved in full. The other three decoders are proved right on well-formed messages that have fully arrived; the encoders write the width of the handle instead of the handle, so they are well formed only for handle 1, and the decoders panic when the header arrives alone (refuted). Commitment reveal is encoded without the header byte the decoder drops (refuted). C43_exactly says what every handle of a request is told as."
  },
  {
   "property": "C44",
   "status": "partial",
   "theorems": [
    "C44_read_capability",
    "C44_static_token",
    "C44_area_partial",
    "C44_limits_read",
    "C44_limits_refuted",
    "C44_area_refuted"
   ],
   "note": "Read capability and static token: full. Area of interest: only without limits and for areas as in C22. Refuted: no limit ever arrives, authorisation misread, encoded subspace panics. C44_limits_read: from a header as the specification has it the decoder would read the limits."
  },
  {
   "property": "C45",
   "status": "partial",
   "theorems": [
    "C45_send_payload",
    "C45_fingerprint_partial",
    "C45_announce_partial",
    "C45_send_entry_partial",
    "C45_range_refuted",
    "C45_covers_refuted",
    "C45_reconciliation_refuted"
   ],
   "note": "Payload: full. Fingerprint and announcement: all fields but the range (which never arrives), with conditions on covers and handle widths. Entry: round trip once arrived, token handle equal to the previous or above 63, token decoded first. Refuted otherwise."
  },
  {
   "property": "C46",
   "status": "partial",
   "theorems": [
    "C46_every_byte",
    "C46_dispatch_partial",
    "C46_dispatch_refuted"
   ],
   "note": "Dispatch is right for control, reply, payload request, fingerprint and intersection messages in all tracker states and for the shared header of the other reconciliation messages when expected. Refuted: three data kinds go to the fingerprint decoder, setup messages to none, termination is never recognised. C46_every_byte says what the dispatcher does with every byte."
  },
  {
   "property": "C47",
   "status": "partial",
   "theorems": [
    "C47_find_partial",
    "C47_added_partial",
    "C47_add_refuted",
    "C47_nothing_added_refuted",
    "C47_ambiguous_refuted"
   ],
   "note": "FindCapHandle proved for any finder and any iteration order. Refuted: AddCap writes to a nil map, so that nothing can ever be added; 0 is both a handle and the absence of one. C47_added_partial: once the map exists, an added capability is found."
  },
  {
   "property": "C48",
   "status": "partial",
   "theorems": [
    "C48_complete_partial",
    "C48_rebind_refuted",
    "C48_stale_refuted",
    "C48_namespace"
   ],
   "note": "Completeness, soundness and uniqueness proved for all sequences of bindings with each handle bound once per side, valid time ranges, and all iteration orders. Announcements do not carry the area. Refuted: a rebound handle is announced twice or leaves a stale announcement. C48_namespace: HandleToNamespaceId returns the namespace last bound to the handle on that side."
  },
  {
   "property": "C49",
   "status": "partial",
   "theorems": [
    "C49_get_partial",
    "C49_independent_partial",
    "C49_lost_refuted",
    "C49_exact"
   ],
   "note": "Proved across different handles of ours. Refuted: adding a second reconciler for the same handle of ours loses the first."
  },
  {
   "property": "C50",
   "status": "partial",
   "theorems": [
    "C50_request",
    "C50_entry",
    "C50_served_partial",
    "C50_again",
    "C50_verbatim_partial",
    "C50_stops_refuted",
    "C50_once_refuted"
   ],
   "note": "Proved: requests with an offset strictly inside a stored payload are served in order, verbatim from the offset, for any queue operations. Refuted: an offset equal to the length (or an empty payload) ends the sender with an error and later requests are lost; Messages does not clear the queue, so everything is sent again. C50_request, C50_entry: a request or entry is queued exactly if its payload is there, otherwise the call returns an error."
  },
  {
   "property": "C51",
   "status": "partial",
   "theorems": [
    "C51_queue",
    "C51_never_refuted",
    "C51_untouched",
    "C51_no_deadlock_partial",
    "C51_terminate_partial",
    "C51_stale_refuted",
    "C51_delivered_partial"
   ],
   "note": "Refuted for every event sequence: the ingester's logic sits under the Cancel event, so nothing is ever handed to the store. Proved: the ingester never deadlocks, and Terminate returns the entry of a target requested before; a stale entry can be returned. C51_delivered_partial: with a caller and the goroutine in any interleaving everything handed over arrives once and in order, and the calls can always return."
  },
  {
   "property": "C52",
   "status": "partial",
   "theorems": [
    "C52_initiator_needs",
    "C52_covered_partial",
    "C52_nothing_refuted",
    "C52_restart_refuted",
    "C52_ties_refuted",
    "C52_acceptor",
    "C52_acceptor_refuted",
    "C52_initiator_refuted",
    "C52_start",
    "C52_start_refuted"
   ],
   "note": "Proved with a summary that works and at most four tied timestamps: any order of delivery ends within twice as many steps as there are entries and every entry one side lacks is in an announced range. Refuted of the shipped summary: stores never reopened announce nothing, a reopened store ends the process; with nine ties and any working summary the exchange never ends and announces nothing; the messenger's acceptor never sends anything, its initiator sends the same bytes whatever it holds; NewReconciler hangs when the ranges are disjoint. C52_initiator_needs: what the initiator's handler needs to send at all."
  },
  {
   "property": "C53",
   "status": "partial",
   "theorems": [
    "C53_time",
    "C53_time_of_day",
    "C53_time_refuted",
    "C53_path",
    "C53_path_back_partial",
    "C53_path_back_refuted"
   ],
   "note": "Time: exact for hours and minutes whose result fits 64 bits; refuted beyond (wraps) and for 00:00. Path: splitting and joining are inverse on texts; printing components that contain '/' is ambiguous (refuted)."
  },
  {
   "property": "C54",
   "status": "partial",
   "theorems": [
    "C54_exactly",
    "C54_codes_partial",
    "C54_control_channel_refuted"
   ],
   "note": "All seven logical channels at both ends of the byte and all five handle types, with all other header bits. The control channel, a value of the same type, shares the code of the reconciliation channel (refuted)."
  },
  {
   "property": "C55",
   "status": "partial",
   "theorems": [
    "C55_whole_turns",
    "C55_fragmentation",
    "C55_framed_partial",
    "C55_channels_partial",
    "C55_unframed_refuted",
    "C55_initiator_refuted",
    "C55_length_refuted",
    "C55_early_refuted",
    "C55_two_listeners_refuted",
    "C55_closed"
   ],
   "note": "Proved: any fragmentation of a framed sequence is received as the same sequence, and channels do not mix. Refuted: Send does not frame, so no non-empty sequence is received as sent; Initiate puts an extra first message; lengths from 2^63 panic; Send and Close before the streams exist panic; two receivers on one stream split the messages. C55_closed: after Close nothing more is sent. C55_whole_turns: two listeners that each take whole messages get the messages in turn."
  },
  {
   "property": "C56",
   "status": "partial",
   "theorems": [
    "C56_only_races_partial",
    "C56_unshared_partial",
    "C56_overwrite_refuted",
    "C56_erase_refuted",
    "C56_alone"
   ],
   "note": "Calls are threads with the steps write, ingest (atomic under the mutex), count, erase. C56_only_races_partial: whatever the interleaving, if no step is one of two overlaps (an ingestion removes an entry whose payload another call has written but not ingested; a payload is erased although an entry or a call between write and ingestion has it) every live entry keeps its payload and no call is blocked. C56_unshared_partial: with pairwise different new payloads the overlaps cannot happen, so every interleaving is safe. C56_overwrite_refuted and C56_erase_refuted: each overlap happens and loses the payload of a live entry for good."
  },
  {
   "property": "C57",
   "status": "proved",
   "theorems": [
    "C57_only_authorised_entries",
    "C57_unauthorised_no_effect"
   ],
   "note": "Full: all histories with paths within the limits, including crashes at any durable write."
  },
  {
   "property": "C58",
   "status": "proved",
   "theorems": [
    "C58_monotone_strict",
    "C58_monotone"
   ],
   "note": "For every history of Set, IngestEntry and restart with paths of bytes up to and including the limits (the empty path too), any digests, across operations that end the process (the store is then opened again); the parameters leave room for one more in their type. Cuts in the middle of an operation are C32."
  },
  {
   "property": "C59",
   "status": "partial",
   "theorems": [
    "C59_distance_partial",
    "C59_zero_distance_refuted",
    "C59_zero_exactly"
   ],
   "note": "Symmetric, non-negative, zero on equal paths; zero implies equal only for paths of the same shape, refuted in general. C59_zero_exactly says which paths are at distance zero."
  },
  {
   "property": "C60",
   "status": "proved",
   "theorems": [
    "C60_exactly",
    "C60_compact_width",
    "C60_compact_width_any"
   ],
   "note": "All header bytes and the four widths; also for headers beyond one byte."
  },
  {
   "property": "C61",
   "status": "partial",
   "theorems": [
    "C61_no_crash_partial",
    "C61_reads_partial",
    "C61_no_crash_refuted",
    "C61_each_limit_refuted"
   ],
   "note": "Every such history runs to completion and every read returns, for every history of Set, IngestEntry and restart whose paths are non-empty and strictly below the component-length, count and total-length limits, any subspaces, any digests with different file names. Refuted for a path of exactly the maximal total length (log.Fatal after the durable insert); C61_each_limit_refuted shows that each of the four conditions (non-empty, number of components, component length, total length) is needed."
  },
  {
   "property": "C62",
   "status": "proved",
   "theorems": [
    "C62_IsFirstPrefixOfSecond",
    "C62_CompareKeys",
    "C62_GetMultipleValues"
   ],
   "note": "Full."
  },
  {
   "property": "C63",
   "status": "partial",
   "theorems": [
    "C63_roundtrip_partial",
    "C63_open_range_refuted",
    "C63_closed_range_refuted"
   ],
   "note": "Round trip proved for entries sharing the first component with the bounds of the path range, once arrived. Refuted: entries of a range without such a component end the process (open) or are refused (closed)."
  },
  {
   "property": "C64",
   "status": "partial",
   "theorems": [
    "C64_decoder_partial",
    "C64_roundtrip_refuted",
    "C64_written",
    "C64_forgets_refuted"
   ],
   "note": "The decoder is proved right on the specified encoding; the encoder's output is proved undecodable for every entry of every area with fewer than 48 path components. C64_written gives exactly what the encoder writes; C64_forgets_refuted: entries of different times and lengths have the same encoding."
  },
  {
   "property": "C65",
   "status": "partial",
   "theorems": [
    "C65_get_after_set_partial",
    "C65_get_partial",
    "C65_no_directory",
    "C65_absent_refuted",
    "C65_limit"
   ],
   "note": "Get after a successful Set proved for paths strictly below the limits. Refuted: an absent entry prints an empty line like an empty payload, panics in a new namespace, and an entry with absent payload panics. C65_limit: get of a path at the limits ends the process."
  },
  {
   "property": "C66",
   "status": "partial",
   "theorems": [
    "C66_sessions_partial",
    "C66_set_partial",
    "C66_json_partial",
    "C66_list_partial",
    "C66_get_partial",
    "C66_only_set",
    "C66_same_time_refuted",
    "C66_limits_refuted"
   ],
   "note": "Proved for every sequence of lines, ends of input and restarts whose set lines stay strictly below the path limits and whose file contents and subspaces have no digest collisions; C66_sessions_partial also needs entries at comparable places to have different times (C31). C66_only_set holds in every state without conditions. Without these the claim is false: C66_same_time_refuted (the second of two lines with one time at one place is refused, though nothing typed supersedes its entry) and C66_limits_refuted (at a component of the greatest length an entry stays after a newer line for the same place)."
  },
  {
   "property": "C67",
   "status": "partial",
   "theorems": [
    "C67_isolation",
    "C67_known",
    "C67_enter_partial",
    "C67_left_open",
    "C67_dies_partial",
    "C67_wrong_time_refuted",
    "C67_new_unknown_refuted",
    "C67_prompt",
    "C67_inside"
   ],
   "note": "Isolation, the set of known namespaces and the effect of a line that gives up are proved for all states. Entering, and the exact list of lines that end the program, are proved for sessions below the path limits without such a line. Refuted: after a wrong time or an unreadable file the namespace stays open and entering it ends the process; a namespace made by the running process is neither listed nor entered; new without a name and get in a fresh namespace end the process. What every word does at either prompt, and that no other word does anything: C67_prompt, C67_inside."
  },
  {
   "property": "C68",
   "status": "partial",
   "theorems": [
    "C68_submit",
    "C68_answers_partial",
    "C68_silent",
    "C68_reply_handle_refuted",
    "C68_outer_area",
    "C68_check",
    "C68_received",
    "C68_requested",
    "C68_verified",
    "C68_read_cap",
    "C68_privy",
    "C68_known",
    "C68_common_refuted",
    "C68_forged_refuted",
    "C68_unasked_refuted",
    "C68_outer_refuted"
   ],
   "note": "C68_submit and C68_outer_area hold for every group. C68_answers_partial: answers agree exactly for equal fragments when GetScalar always returns the same scalar. C68_silent shows for all runs that no intersection is announced, so the statement is refuted (C68_common_refuted and the others). C68_check, C68_received, C68_requested, C68_verified, C68_read_cap and C68_privy state, for every state, what each call of the finder does."
  },
  {
   "property": "C69",
   "status": "partial",
   "theorems": [
    "C69_holds_partial",
    "C69_converge_partial",
    "C69_can_send_partial",
    "C69_again_partial",
    "C69_ties_refuted"
   ],
   "note": "Proved for stores whose paths stay strictly below the path limits and for entries of which none ties with another at comparable places (equal timestamp, length and digest order): C69_holds_partial, C69_converge_partial, C69_can_send_partial, C69_again_partial. With ties two stores that exchanged everything differ for ever (C69_ties_refuted)."
  },
  {
   "property": "C70",
   "status": "partial",
   "theorems": [
    "C70_rel_path",
    "C70_numbers",
    "C70_path",
    "C70_key",
    "C70_values",
    "C70_database",
    "C70_path_stream",
    "C70_rel_path_stream",
    "C70_entry",
    "C70_key_memory",
    "C70_values_memory",
    "C70_path_memory",
    "C70_path_memory_refuted",
    "C70_stream_no_slack",
    "C70_stream_memory_refuted",
    "C70_limits_refuted",
    "C70_int64_refuted",
    "C70_empty"
   ],
   "note": "What is returned is always the value whose encoding the input begins with (C70_path, C70_rel_path, C70_key, C70_values exactly; C70_path_stream, C70_rel_path_stream, C70_entry for every schedule; C70_numbers), but other input makes the decoders panic or wait (C70_empty), limits are not checked (C70_limits_refuted), DecodePath and DecodePathStream can return bytes from behind their input (C70_path_memory_refuted, C70_stream_memory_refuted; keys and values cannot: C70_key_memory, C70_values_memory), and DecodeIntMax64 accepts non-canonical numbers (C70_int64_refuted). A database is opened exactly when all its keys and values decode, otherwise the program panics: C70_database."
  },
  {
   "property": "C71",
   "status": "partial",
   "theorems": [
    "C71_default",
    "C71_channel",
    "C71_stream_partial",
    "C71_silent",
    "C71_spin",
    "C71_no_memory",
    "C71_tracker_unread",
    "C71_announcement_panics",
    "C71_nothing_reconciled",
    "C71_tracker",
    "C71_fresh",
    "C71_lost_refuted"
   ],
   "note": "C71_stream_partial: proved for every sequence of absolve, plead, announce-dropping, apologise, free, bind-fragment and payload-reply messages. For the other kinds the statement is false (every encoded message makes one frame on its channel: C71_channel): whatever arrives, announcements, entries, payloads, payload requests, setup messages, commitments and metadata are never put out (C71_silent), an announcement panics (C71_announcement_panics), a message without decoder stops the loop for ever (C71_spin, C71_lost_refuted), and fingerprints, announcements and entries can never be encoded (C71_nothing_reconciled). C71_default: the range both ends start from contains everything."
  },
  {
   "property": "C72",
   "status": "partial",
   "theorems": [
    "C72_isolated",
    "C72_silent",
    "C72_no_crash",
    "C72_history",
    "C72_acceptor",
    "C72_delivered_partial",
    "C72_lost_refuted",
    "C72_torn_refuted",
    "C72_crash_refuted",
    "C72_range_crash_refuted",
    "C72_forged_refuted",
    "C72_altered_refuted"
   ],
   "note": "Proved: in every session of two messengers each store is what its own application made it, so nothing is exchanged (C72_isolated), only the numbers of the streams are written (C72_silent), and nothing received ends a process (C72_no_crash); under any peer whatever a store is a run of local calls and decoded Sets (C72_history), and an acceptor's store is not affected at all (C72_acceptor). C72_delivered_partial: a decoded entry with its own payload reaches the store as it should, given that the data listener gets the message. Refuted: exchange of entries (consequence of C72_isolated), independence of scheduling (C72_lost_refuted, C72_torn_refuted), survival with other peers (C72_crash_refuted, C72_range_crash_refuted), authorisation (C72_forged_refuted), entries as written (C72_altered_refuted)."
  },
  {
   "property": "C73",
   "status": "partial",
   "theorems": [
    "C73_snapshot",
    "C73_given",
    "C73_ends",
    "C73_late_refuted",
    "C73_twice_refuted",
    "C73_announced_once",
    "C73_announced_order",
    "C73_capacity"
   ],
   "note": "Proved: a channel made from a queue delivers a prefix of what was in the queue when its goroutine started, in order, each element once, and all of it before it is closed (C73_snapshot, C73_given), and it can always be read to its end (C73_ends); each announcement is delivered to exactly one listener (C73_announced_once), in order if there is one listener (C73_announced_order). Refuted: elements queued after the start are never delivered (C73_late_refuted), a second call delivers everything again (C73_twice_refuted). An announcement waits exactly when eight have not been taken: C73_capacity."
  },
  {
   "property": "C74",
   "status": "partial",
   "theorems": [
    "C74_counts_partial",
    "C74_files_partial",
    "C74_refusal_partial",
    "C74_exact_counts_partial",
    "C74_exact_files_partial",
    "C74_tokens_partial",
    "C74_leak_refuted",
    "C74_refusal_refuted",
    "C74_tokens_refuted"
   ],
   "note": "C74_counts_partial, C74_files_partial and C74_refusal_partial give the exact effect of each operation on counts and files at every reached state (paths strictly below the limits). C74_exact_counts_partial: counts are numbers of live entries if no entry is replaced by one with the same digest; C74_exact_files_partial: the directory holds exactly the payloads and tokens of live entries if moreover no Set is refused, entries are set and not ingested and no payload is a subspace name; C74_tokens_partial: tokens of live entries are stored if no payload is a subspace name, for any history. Each exclusion is necessary: C74_leak_refuted, C74_refusal_refuted, C74_tokens_refuted."
  },
  {
   "property": "C75",
   "status": "partial",
   "theorems": [
    "C75_clear",
    "C75_values",
    "C75_keys_partial",
    "C75_reused",
    "C75_reopen_partial",
    "C75_reopen_reused",
    "C75_list",
    "C75_list_partial",
    "C75_keys_refuted",
    "C75_reopen_refuted",
    "C75_list_refuted"
   ],
   "note": "With any choices of the iterator: Clear deletes everything (C75_clear), ListAllValues finds every value in order (C75_values), ListValues has the right timestamps, digests and lengths (C75_list). If every move allocates, keys, index and listings are those of the rest of the model (C75_keys_partial, C75_reopen_partial, C75_list_partial). If the buffer is used again and the keys have one length, every key listed is the last one and the index has only the newest position (C75_reused, C75_reopen_reused); so the full statements are refuted (C75_keys_refuted, C75_reopen_refuted, C75_list_refuted). Pebble documents that the bytes of a key may change on the next move; which choice it makes is not modelled."
  },
  {
   "property": "C76",
   "status": "partial",
   "theorems": [
    "C76_spelt_path",
    "C76_spelt_values",
    "C76_spelt_pai",
    "C76_spelt_data",
    "C76_spelt_setup",
    "C76_spelt_reconciliation",
    "C76_control",
    "C76_reply_payload",
    "C76_reconciliation_payload",
    "C76_metadata",
    "C76_bind_fragment",
    "C76_static_token",
    "C76_read_capability",
    "C76_commitment_reveal",
    "C76_values",
    "C76_pai_messages",
    "C76_entry_messages",
    "C76_range_messages",
    "C76_values_left",
    "C76_messages_left",
    "C76_range_failures",
    "C76_request",
    "C76_send_payload_partial",
    "C76_send_payload_refuted",
    "C76_request_refuted"
   ],
   "note": "Exactly the value, exactly the rest, waiting exactly when bytes are missing: control messages, replies, metadata, reconciliation payloads, fragments, static tokens, read capabilities, commitments (C76_control, C76_reply_payload, C76_metadata, C76_reconciliation_payload, C76_bind_fragment, C76_static_token, C76_read_capability, C76_commitment_reveal). For all others two decodings of the same bytes that succeed agree in value and rest, and none succeeds where another returns an error (C76_values, C76_pai_messages, C76_entry_messages, C76_range_messages); all decoders leave an end of what was there and never end the process (C76_values_left, C76_messages_left); where a relative range is refused or panics: C76_range_failures; requests: C76_request. Refuted: the payload of DataSendPayload is exact (C76_send_payload_partial) but what follows is lost if it has already arrived (C76_send_payload_refuted); a handle not yet arrived makes the intersection messages panic (C76_request_refuted). In the messages with a range an error is dropped; what is then left unread is stated exactly (g_range_stop in C76_spelt_reconciliation). The exact grammar of every value and message decoded from a stream, however it arrives, with the bytes that are swallowed, not waited for or panicked on: C76_spelt_path, C76_spelt_values, C76_spelt_pai, C76_spelt_data, C76_spelt_setup, C76_spelt_reconciliation."
  },
  {
   "property": "C77",
   "status": "partial",
   "theorems": [
    "C77_exact",
    "C77_symmetric",
    "C77_distance_partial",
    "C77_zero_refuted",
    "C77_negative_refuted",
    "C77_bound_refuted"
   ],
   "note": "Exact value of both distances modulo 2^64 and symmetry proved for all keys; zero exactly for equal positions, non-negativity and the lower bound in time proved for keys with squared time difference below 2^63 - 2. Refuted beyond, and for the dimensions of subspace and path. No code in /repo calls the two functions."
  },
  {
   "property": "C78",
   "status": "partial",
   "theorems": [
    "C78_entry_entry",
    "C78_entry_range",
    "C78_entry_range_refuses",
    "C78_area",
    "C78_range",
    "C78_data_entry",
    "C78_payload_request",
    "C78_send_entry",
    "C78_bind_aoi",
    "C78_fingerprint",
    "C78_announce",
    "C78_control",
    "C78_pai",
    "C78_payloads",
    "C78_range_refuted",
    "C78_open_refuted",
    "C78_offset_refuted",
    "C78_handle_refuted",
    "C78_fingerprint_refuted",
    "C78_limits_refuted",
    "C78_token_refuted"
   ],
   "note": "Every bit of every header and every field after it, in order, with the fewest bytes for every number: relative entries, areas and ranges (C78_entry_entry, C78_entry_range, C78_area, C78_range), messages with them (C78_data_entry, C78_payload_request, C78_send_entry, C78_bind_aoi, C78_fingerprint, C78_announce), control, intersection and payload messages (C78_control, C78_pai, C78_payloads). They say what is written, also where it is not what the header announces. Refuted: the header of a relative range announces another width for the end time than is written; starts of open subspace ranges, offsets and handles above 255 that are written alike; widths and limits that are not announced."
  },
  {
   "property": "C79",
   "status": "partial",
   "theorems": [
    "C79_no_failure",
    "C79_recorded",
    "C79_opens",
    "C79_files",
    "C79_read",
    "C79_payload",
    "C79_success",
    "C79_error",
    "C79_set_error",
    "C79_stuck",
    "C79_payload_refuted",
    "C79_read_refuted",
    "C79_replace_refuted",
    "C79_unchanged_refuted",
    "C79_reported_refuted",
    "C79_count_refuted",
    "C79_start_refuted",
    "C79_start_exactly"
   ],
   "note": "For all outcomes of all calls: without failures the model is that of the store (C79_no_failure); the database holds only offered entries, spelt in full (C79_recorded), and opens again (C79_opens); files hold the first bytes of what was given, and reading gives the first bytes of the payload (C79_files, C79_read, C79_payload); success means recorded, indexed and unlocked (C79_success, from every state); an error of an ingestion means refused and unchanged, or the lock kept (C79_error, C79_set_error), and a kept lock stops everything until the next start (C79_stuck). Refuted: payloads not written, torn or misread without an error; two versions at one place after a failed delete; an error that lost both versions and keeps the lock; an error although the entry is recorded; a dropped count that erases a live payload; a start that sees an empty store. C79_start_exactly: opening, for every way its calls can go."
  },
  {
   "property": "C80",
   "status": "partial",
   "theorems": [
    "C80_read_back",
    "C80_distinct",
    "C80_inside",
    "C80_digests",
    "C80_shared_refuted",
    "C80_store",
    "C80_capabilities"
   ],
   "note": "base32 and base64 text can be read back, so names and keys are distinct for distinct bytes (C80_read_back, C80_distinct); names keep to the alphabet, inside the directory (C80_inside); digests made by hashing have distinct names of 56 characters (C80_digests); by simulation over all histories, the store with names as on disk and the store of M_Store.v agree on everything a caller sees (C80_store), and so do the capability maps (C80_capabilities). Not true of digests from elsewhere: letter case is ignored and text that is not hexadecimal names the directory (C80_shared_refuted)."
  },
  {
   "property": "C81",
   "status": "partial",
   "theorems": [
    "C81_still",
    "C81_get",
    "C81_untouched",
    "C81_query",
    "C81_payload_partial",
    "C81_own_partial",
    "C81_torn",
    "C81_gap_refuted",
    "C81_error_refuted",
    "C81_vanished_refuted",
    "C81_torn_refuted"
   ],
   "note": "For all histories with crashes and all pairs of moments: what Get and Query return (C81_get, C81_query), that untouched entries and empty places read as before (C81_untouched); for histories without crashes the payloads of untouched entries (C81_payload_partial) and of the entry being stored (C81_own_partial), unless the payload is the subspace name; C81_still ties the readers to the sequential ones; C81_torn gives exactly what is read while a file is being written. Not true: no gap at a place occupied before and after (C81_gap_refuted), no error (C81_error_refuted), payloads always present and whole (C81_vanished_refuted, C81_torn_refuted)."
  },
  {
   "property": "C82",
   "status": "partial",
   "theorems": [
    "C82_no_failure",
    "C82_panics",
    "C82_fails",
    "C82_reported",
    "C82_bytes",
    "C82_set",
    "C82_staged",
    "C82_received",
    "C82_commit",
    "C82_commit_part",
    "C82_reject",
    "C82_origin",
    "C82_offset",
    "C82_reading_refuted",
    "C82_leftover_refuted",
    "C82_digest_refuted",
    "C82_large_refuted",
    "C82_lost_refuted"
   ],
   "note": "For all sequences of driver calls and outcomes, from an empty disk: C82_no_failure (as M_Payload once nothing fails, up to 2^30 bytes received), C82_staged, C82_received, C82_commit, C82_commit_part, C82_origin, C82_offset, C82_set, C82_reported, C82_bytes, C82_reject, C82_panics and C82_fails (every failing call in Receive is a panic). Not true: errors are returned (C82_reading_refuted: a failing Stat is a nil dereference), a failed reception leaves nothing (C82_leftover_refuted), the digest is that of the file (C82_digest_refuted with a short read, C82_large_refuted without any failure beyond 2^30 bytes), a partial payload said to be committed is there (C82_lost_refuted)."
  },
  {
   "property": "C83",
   "status": "partial",
   "theorems": [
    "C83_successor_path",
    "C83_successor_prefix",
    "C83_prefixed_by",
    "C83_prefixed_by_ends",
    "C83_loaded",
    "C83_area",
    "C83_area_refuted",
    "C83_encode",
    "C83_encode_refuted"
   ],
   "note": "Slices over arrays, append with any growth policy. C83_successor_path, C83_successor_prefix (components that are apart and disjoint, as DecodeKey and the decoders make them), C83_prefixed_by (justifies reshare of M_Store), C83_loaded (justifies clobber of M_Store for every key that decodes), C83_area, C83_encode. Not true: the range of an area made from a decoded key starts at its subspace (C83_area_refuted), two encodings of entries of one namespace are independent when the namespace has spare capacity (C83_encode_refuted)."
  },
  {
   "property": "C84",
   "status": "partial",
   "theorems": [
    "C84_in_order",
    "C84_nothing_lost",
    "C84_drains",
    "C84_rest_can_be_read",
    "C84_after_the_end",
    "C84_more_panics",
    "C84_after_the_panic",
    "C84_waiting_is_stuck",
    "C84_told_refuted"
   ],
   "note": "M_Close adds the closing of Incoming to the machine of M_Growing. C84_in_order, C84_nothing_lost, C84_drains, C84_rest_can_be_read, C84_after_the_end, C84_more_panics, C84_after_the_panic, C84_waiting_is_stuck. The full claim fails: a reader that waits when the stream ends is not told (C84_told_refuted)."
  },
  {
   "property": "C85",
   "status": "partial",
   "theorems": [
    "C85_control",
    "C85_commitment",
    "C85_setup",
    "C85_data",
    "C85_reconciliation",
    "C85_pai_there",
    "C85_data_there",
    "C85_announce_there",
    "C85_request_refuted",
    "C85_reply_refuted",
    "C85_payload_refuted",
    "C85_payload_request_refuted",
    "C85_announce_refuted"
   ],
   "note": "Every slice expression of the message decoders with a spare of its own. Whatever is in it, the decoders that wait for each field return what M_Wire and M_Wire2 say (C85_control, C85_commitment, C85_setup, C85_data, C85_reconciliation); the three of private area intersection that read a handle, DataSendPayload, DataBindPayloadRequest and AnnounceEntries do so unless M_Wire, M_Wire2 panic (C85_pai_there, C85_data_there, C85_announce_there). Refuted for these: with the eight bytes that append allocates, a message arriving in pieces is returned with zeros in it, and the bytes that come late are read as what follows (C85_request_refuted, C85_reply_refuted, C85_payload_refuted, C85_payload_request_refuted, C85_announce_refuted). Embedded entries and ranges are decoded without spare; for paths see C70_stream_memory_refuted."
  },
  {
   "property": "C86",
   "status": "partial",
   "theorems": [
    "C86_stretch",
    "C86_nothing_lost",
    "C86_no_nil",
    "C86_forgotten",
    "C86_one_of_two",
    "C86_wedge",
    "C86_one_reader",
    "C86_relative",
    "C86_short_refuted",
    "C86_both_refuted",
    "C86_relative_refuted"
   ],
   "note": "M_Readers: the machine of M_Growing with any number of readers and NextRelative. For all schedules: C86_stretch, C86_nothing_lost, C86_no_nil; C86_one_reader: with one reader it is M_Growing; C86_relative for a sole reader. C86_one_of_two, C86_forgotten, C86_wedge: which calls never return. Refuted: a call can return fewer bytes than it asked for (C86_short_refuted), two calls for one length are not both answered (C86_both_refuted), NextRelative depends on when the goroutine takes the bytes in (C86_relative_refuted)."
  },
  {
   "property": "C87",
   "status": "partial",
   "theorems": [
    "C87_multiple",
    "C87_all",
    "C87_list",
    "C87_query",
    "C87_iterator",
    "C87_clear",
    "C87_clear_again",
    "C87_given_back",
    "C87_list_given_back",
    "C87_given_back_refuted"
   ],
   "note": "M_KvFault: calls of pebble take outcomes, and open iterators and values are counted. C87_multiple, C87_all, C87_list, C87_query: the right answer exactly if no call failed, otherwise an error or the end of the process, and the database unchanged; C87_iterator: which of the two for iterators. C87_clear, C87_clear_again. C87_given_back and C87_list_given_back count what stays open; that nothing does is refuted (C87_given_back_refuted): a listing stopped by its size limit keeps a value each time, a Clear whose Delete fails keeps its iterator. Assumed of pebble: an iterator that meets an error yields no more keys and its Close returns the error; a failed call has no effect."
  },
  {
   "property": "C88",
   "status": "partial",
   "theorems": [
    "C88_path",
    "C88_range_exactly",
    "C88_range_right",
    "C88_range_clash",
    "C88_range_refuted",
    "C88_position",
    "C88_bytes_refuted",
    "C88_bytes_right",
    "C88_roundtrip_partial",
    "C88_area_right",
    "C88_area_refuted",
    "C88_stream_area",
    "C88_entry",
    "C88_entries_last",
    "C88_entries_clash",
    "C88_entries_refuted",
    "C88_bytes_open",
    "C88_area_outcomes",
    "C88_area_entry",
    "C88_range_entry",
    "C88_area_entries",
    "C88_area_clash",
    "C88_area_entries_refuted",
    "C88_area_moves_refuted",
    "C88_range_moves_refuted"
   ],
   "note": "M_RelMem: paths as slices of arrays of components, append with any growth policy, references cut up to their capacity. C88_path, C88_range_exactly, C88_position, C88_stream_area, C88_entry say exactly what is returned and written; C88_range_right, C88_bytes_right, C88_roundtrip_partial, C88_area_right, C88_area_outcomes, C88_entries_last when values come out right. C88_range_clash and C88_entries_clash: whatever was sent, paths that have room in one array come out as prefixes of one another. So the full statement is refuted (C88_range_refuted, C88_bytes_refuted, C88_area_refuted, C88_entries_refuted). M_RelMem2: the same for an entry in an area and in a range (C88_area_entry, C88_range_entry exactly; C88_area_entries when the area and which entries stay right; C88_area_clash; refuted by C88_area_entries_refuted, C88_area_moves_refuted, C88_range_moves_refuted). From bytes, nothing is relative to the end of an open reference (C88_bytes_open)."
  },
  {
   "property": "C89",
   "status": "partial",
   "theorems": [
    "C89_never",
    "C89_rest_never",
    "C89_received",
    "C89_no_failure",
    "C89_part_refuted",
    "C89_error_refuted"
   ],
   "note": "M_Ingest over M_Disk. C89_never and C89_rest_never: the function as it is, and with the test of the lookup repaired, stores nothing whatever fails. C89_received: for the code behind the tests, what every result says about the bytes received, the stored file and all other files. C89_no_failure: without failures it is ingest_received (C36_received). Refuted: success for a part whose copy failed (C89_part_refuted), an error although the payload is stored (C89_error_refuted)."
  },
  {
   "property": "C90",
   "status": "partial",
   "theorems": [
    "C90_recorded",
    "C90_holds",
    "C90_files",
    "C90_only_set",
    "C90_accepted",
    "C90_error",
    "C90_stuck",
    "C90_start",
    "C90_entered",
    "C90_get",
    "C90_no_failure",
    "C90_error_refuted",
    "C90_lost_refuted",
    "C90_done_refuted",
    "C90_get_refuted",
    "C90_list_refuted"
   ],
   "note": "M_ShellFault over M_Shell and M_Fault. For every session and all outcomes: the database and the payload files of a namespace come from lines typed inside it (C90_recorded, C90_holds, C90_files); other lines change nothing held (C90_only_set, from every state); success of a set line means recorded, unlocked, entries.json written or an error message, other namespaces untouched (C90_accepted, from every state); what an error leaves (C90_error); a start that cannot read the directory ends the program and nothing else happens (C90_start); a locked store ends the next set line (C90_stuck) and is free after entering (C90_entered); get prints nothing or the first bytes of a file typed at that place (C90_get, paths strictly below the limits, no digest collisions); without failures the model is that of C66 (C90_no_failure). Refuted: an error although the entry is held (C90_error_refuted), an error that lost the entry to be replaced (C90_lost_refuted), success without the file, whose get ends the program (C90_done_refuted), an empty line for an entry that is there (C90_get_refuted), an empty list, and an older entry accepted, after a failed read (C90_list_refuted)."
  },
  {
   "property": "C91",
   "status": "proved",
   "theorems": [
    "C91_read_back",
    "C91_distinct",
    "C91_cut",
    "C91_session"
   ],
   "note": "M_Json: json.Marshal of the keys (numbers, base64 text, null for nil slices, escaped strings with U+FFFD for what is not UTF-8); S_Json: a JSON reader written apart from it. C91_read_back, C91_distinct and C91_cut for all lists of keys; C91_session joins them to the sessions of C66 (its conditions on the set lines: strictly below the path limits, no digest collisions). C91_instance gives byte for byte the entries.json that is in the repository; C91_instance_lost shows two fingerprints that are not UTF-8 with one text, so the condition is needed. encoding/json is modelled, not read: its source is not in the repository."
  }
 ]
}