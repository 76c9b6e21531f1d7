{
 "claims": [
  {
   "property": "C01",
   "status": "proved",
   "theorems": [
    "C01_capacity"
   ],
   "note": "every history of content-store operations, no assumption on packets; the limit is the one last configured"
  },
  {
   "property": "C02",
   "status": "proved",
   "theorems": [
    "C02_find",
    "C02_find_incomplete_refuted",
    "C02_find_sound"
   ],
   "note": "soundness for every packet; completeness and canonical choice for Data whose names carry no implicit-digest component; the refuted theorem shows the exception is real"
  },
  {
   "property": "C03",
   "status": "proved",
   "theorems": [
    "C03_fresh_deadline",
    "C03_fresh_overflow_refuted",
    "C03_insert_again",
    "C03_insert_new",
    "C03_insert_refused",
    "C03_lru_insert_kept"
   ],
   "note": "refusal, re-insertion and new insertion; deadline arithmetic exact away from 64-bit overflow, overflow exhibited"
  },
  {
   "property": "C04",
   "status": "proved",
   "theorems": [
    "C04_erase",
    "C04_mgmt_erase",
    "C04_mgmt_erase_refuted"
   ],
   "note": "table erase exact; management erase exact while serving is on, refuted when off"
  },
  {
   "property": "C05",
   "status": "proved",
   "theorems": [
    "C05_lru"
   ],
   "note": "stated on histories through last use times"
  },
  {
   "property": "C06",
   "status": "proved",
   "theorems": [
    "C06_insert_class",
    "C06_priority_fifo",
    "C06_turns_stale"
   ],
   "note": "queue order of evictions, class on arrival, freshness timers"
  },
  {
   "property": "C07",
   "status": "proved",
   "theorems": [
    "C07_no_assertion",
    "C07_queues",
    "C07_refines_abstract_store"
   ],
   "note": "no failed assertion in any history; queues partition the cached packets; refinement to the abstract store"
  },
  {
   "property": "C08",
   "status": "proved",
   "theorems": [
    "C08_only_added",
    "C08_reserved_value_refuted",
    "C08_retained",
    "C08_retained_min"
   ],
   "note": "For every hash function, history and hash-table choice. The reserved fingerprint 0 is a counterexample to the stronger claim (C08_reserved_value_refuted)."
  },
  {
   "property": "C09",
   "status": "proved",
   "theorems": [
    "C09_adjust",
    "C09_capacity_bounds",
    "C09_capacity_fixed",
    "C09_evictions",
    "C09_lifetime",
    "C09_oldest_first"
   ],
   "note": "Includes IEEE-754 rounding of the 0.9/1.2 factors."
  },
  {
   "property": "C10",
   "status": "proved",
   "theorems": [
    "C10_default_options",
    "C10_lookup",
    "C10_map_lookup",
    "C10_map_new",
    "C10_map_set",
    "C10_min_buckets",
    "C10_new",
    "C10_set",
    "C10_size"
   ],
   "note": "Concrete hash-table tree proved to be a prefix-closed finite map for every hash function, options and history."
  },
  {
   "property": "C11",
   "status": "proved",
   "theorems": [
    "C11_erase",
    "C11_links",
    "C11_map_erase",
    "C11_prefix_closed"
   ],
   "note": "Concrete hash-table tree proved to be a prefix-closed finite map for every hash function, options and history."
  },
  {
   "property": "C12",
   "status": "proved",
   "theorems": [
    "C12_all_matches",
    "C12_full_enumeration",
    "C12_lpm",
    "C12_lpm_entry",
    "C12_lpm_pit",
    "C12_map_all_matches",
    "C12_map_lpm",
    "C12_map_partial_enumeration",
    "C12_partial_enumeration"
   ],
   "note": "Concrete hash-table tree proved to be a prefix-closed finite map for every hash function, options and history."
  },
  {
   "property": "C13",
   "status": "proved",
   "theorems": [
    "C13_erase",
    "C13_insert",
    "C13_lpm"
   ],
   "note": "All histories of all four tables sharing one name tree, face removal and time; the entry used is exactly that of the longest registered prefix; frame conditions on every other prefix and table."
  },
  {
   "property": "C14",
   "status": "proved",
   "theorems": [
    "C14_add",
    "C14_remove",
    "C14_sorted"
   ],
   "note": "Sortedness and uniqueness as invariants of every history; exact effect of add, update and remove on costs."
  },
  {
   "property": "C15",
   "status": "partial",
   "theorems": [
    "C15_erase_absent_refuted",
    "C15_signal_partial",
    "C15_signal_refuted",
    "C15_size"
   ],
   "note": "Size exact. The announced nexthop is proved to be the new one only when it is dearer than all others; C15_signal_refuted shows NFD announces a wrong nexthop otherwise, and C15_erase_absent_refuted that erasing a prefix without entry corrupts the size."
  },
  {
   "property": "C16",
   "status": "partial",
   "theorems": [
    "C16_erase",
    "C16_find_partial",
    "C16_find_refuted",
    "C16_insert",
    "C16_key",
    "C16_size"
   ],
   "note": "Insert, erase, uniqueness and size exact. find agrees with insert unless the name tree holds a dangling entry; C16_find_refuted shows removing the last nexthop creates one, so the assertion fires."
  },
  {
   "property": "C17",
   "status": "proved",
   "theorems": [
    "C17_matches"
   ],
   "note": "Against the declarative satisfaction relation of the content store specification."
  },
  {
   "property": "C18",
   "status": "proved",
   "theorems": [
    "C18_face_removed",
    "C18_in_record",
    "C18_out_record",
    "C18_records"
   ],
   "note": "Record uniqueness, expiry with the ten-day cap, and exact effect of face removal on FIB and PIT."
  },
  {
   "property": "C19",
   "status": "partial",
   "theorems": [
    "C19_nack_partial",
    "C19_resend_refuted"
   ],
   "note": "Nack recorded iff nonce matches; new out-records have none. C19_resend_refuted: re-sending on the same face keeps the stale Nack."
  },
  {
   "property": "C20",
   "status": "proved",
   "theorems": [
    "C20_default_stays",
    "C20_effective",
    "C20_erase",
    "C20_insert",
    "C20_size",
    "C20_total"
   ],
   "note": "Longest-prefix inheritance, exact effect of set/unset, the default never disappears, size."
  },
  {
   "property": "C21",
   "status": "partial",
   "theorems": [
    "C21_digest_refuted",
    "C21_erase_partial",
    "C21_insert_partial"
   ],
   "note": "Exact for measurements and FIB entries at every name and for PIT entries hanging on their own name; C21_digest_refuted shows PIT entries whose name ends in a digest keep the old strategy's information."
  },
  {
   "property": "C22",
   "status": "proved",
   "theorems": [
    "C22_alive",
    "C22_extend",
    "C22_get",
    "C22_get_parent",
    "C22_get_pit",
    "C22_lpm",
    "C22_size",
    "C22_tick"
   ],
   "note": "Lifetime, extension, expiry, creation through get/get(pit entry)/getParent, longest-prefix match."
  },
  {
   "property": "C23",
   "status": "partial",
   "theorems": [
    "C23_data",
    "C23_interest",
    "C23_nack",
    "C23_nack_refuted",
    "C23_nfd"
   ],
   "note": "Interest and Data: proved in every state. Nack: proved when every strategy respects scope and no Interest carried NextHopFaceId; the unconditional Nack claim is refuted by C23_nack_refuted."
  },
  {
   "property": "C24",
   "status": "proved",
   "theorems": [
    "C24_access",
    "C24_asf",
    "C24_data",
    "C24_interest",
    "C24_nfd",
    "C24_self_learning",
    "C24_strategies"
   ],
   "note": "Holds on every path except the NextHopFaceId one, which the statement excludes."
  },
  {
   "property": "C25",
   "status": "proved",
   "theorems": [
    "C25_drop",
    "C25_egress",
    "C25_links",
    "C25_sourced"
   ],
   "note": ""
  },
  {
   "property": "C26",
   "status": "proved",
   "theorems": [
    "C26_accounted",
    "C26_match",
    "C26_nfd",
    "C26_nfd_not_back",
    "C26_not_back"
   ],
   "note": ""
  },
  {
   "property": "C27",
   "status": "proved",
   "theorems": [
    "C27_access",
    "C27_all",
    "C27_asf",
    "C27_strategies",
    "C27_token",
    "C27_token_many_refuted",
    "C27_token_upstream_refuted"
   ],
   "note": "C27_token_many_refuted shows Data that satisfies several entries is sent without PIT tokens."
  },
  {
   "property": "C28",
   "status": "proved",
   "theorems": [
    "C28_accept",
    "C28_answer",
    "C28_brief",
    "C28_brief_refuted",
    "C28_data",
    "C28_else",
    "C28_fresh",
    "C28_loop",
    "C28_recorded",
    "C28_timer"
   ],
   "note": "Loop detection, acceptance and recording of nonces, over every reachable history."
  },
  {
   "property": "C29",
   "status": "proved",
   "theorems": [
    "C29_access",
    "C29_armed",
    "C29_asf",
    "C29_fires",
    "C29_only",
    "C29_set",
    "C29_strategies"
   ],
   "note": "Every pending Interest has a timer, it fires at its time, only it removes the entry, and what time it is set to. C29_set is for strategies that leave the timer alone or reject (expire at once); self-learning and ASF set other times."
  },
  {
   "property": "C30",
   "status": "proved",
   "theorems": [
    "C30_nack"
   ],
   "note": "What an incoming Nack changes and what it cannot."
  },
  {
   "property": "C31",
   "status": "proved",
   "theorems": [
    "C31_unsolicited"
   ],
   "note": ""
  },
  {
   "property": "C32",
   "status": "proved",
   "theorems": [
    "C32_hit"
   ],
   "note": ""
  },
  {
   "property": "C33",
   "status": "proved",
   "theorems": [
    "C33_dangling",
    "C33_never_again",
    "C33_removed"
   ],
   "note": "After a face is gone no table mentions it and nothing is sent on it."
  },
  {
   "property": "C34",
   "status": "proved",
   "theorems": [
    "C34_fresh",
    "C34_only",
    "C34_reserved"
   ],
   "note": "Fresh face ids over every history."
  },
  {
   "property": "C35",
   "status": "proved",
   "theorems": [
    "C35_else",
    "C35_removed",
    "C35_satisfied"
   ],
   "note": "Satisfied and unsatisfied counters count PIT entries exactly once, at removal."
  },
  {
   "property": "C36",
   "status": "proved",
   "theorems": [
    "C36_new",
    "C36_retx",
    "C36_suppressed"
   ],
   "note": "Event level: from the arrival of the Interest at the forwarder to everything sent. New, suppressed and retransmitted Interests; the suppression interval after each."
  },
  {
   "property": "C37",
   "status": "proved",
   "theorems": [
    "C37_forward",
    "C37_newhop"
   ],
   "note": "C37_forward is at event level (exact set of Interests sent, and the suppression interval of each nexthop afterwards). C37_newhop is about the trigger for one PIT entry."
  },
  {
   "property": "C38",
   "status": "proved",
   "theorems": [
    "C38_bounds",
    "C38_bounds_refuted",
    "C38_config",
    "C38_default",
    "C38_fixed",
    "C38_forward",
    "C38_grow",
    "C38_huge_refuted",
    "C38_increment",
    "C38_nan_refuted",
    "C38_new",
    "C38_suppress",
    "C38_upstream"
   ],
   "note": "Floating point is modelled as IEEE-754 binary32 with round-to-nearest-even. Refuted: a NaN or huge multiplier is accepted by the constructor and leads to undefined behaviour; the interval may exceed the configured maximum when the initial one is stored under another configuration."
  },
  {
   "property": "C39",
   "status": "proved",
   "theorems": [
    "C39_multicast",
    "C39_nack",
    "C39_strategies"
   ],
   "note": "Event level. The code counts all out-records, also expired ones; the property is stated so. Multicast sends no Nack in return (C39_multicast)."
  },
  {
   "property": "C40",
   "status": "proved",
   "theorems": [
    "C40_distinct",
    "C40_incomplete",
    "C40_roundtrip",
    "C40_whole"
   ],
   "note": "Round trip through fragmenter, sequence assignment and reassembler, for every interleaving; the block parser of ndn-cxx is a parameter."
  },
  {
   "property": "C41",
   "status": "proved",
   "theorems": [
    "C41_defined",
    "C41_fits",
    "C41_fragments",
    "C41_refused",
    "C41_whole"
   ],
   "note": "Sizes are those of the NDNLPv2 encoding, computed field by field."
  },
  {
   "property": "C42",
   "status": "proved",
   "theorems": [
    "C42_deadline",
    "C42_defined",
    "C42_delivered",
    "C42_dropped",
    "C42_held",
    "C42_timeout"
   ],
   "note": "Every history of a reassembler, with arbitrary packets."
  },
  {
   "property": "C43",
   "status": "proved",
   "theorems": [
    "C43_ack",
    "C43_defined",
    "C43_fate",
    "C43_limit",
    "C43_one_fate",
    "C43_outstanding",
    "C43_send",
    "C43_tables",
    "C43_timeout",
    "C43_trace_refuted",
    "C43_unknown_ack",
    "C43_window"
   ],
   "note": "All histories of sends, receptions, timeouts and idle timers; the only undefined case is 2^64 TxSequences between the oldest outstanding and the newest. C43_trace_refuted: with TRACE logging a retransmission reads an erased fragment."
  },
  {
   "property": "C44",
   "status": "partial",
   "theorems": [
    "C44_complete_partial",
    "C44_complete_refuted",
    "C44_sound",
    "C44_verdict"
   ],
   "note": "C44_complete_partial covers the first accepted copy; C44_complete_refuted shows the full statement is false when the earlier copy is itself a duplicate."
  },
  {
   "property": "C45",
   "status": "partial",
   "theorems": [
    "C45_effective",
    "C45_fits_partial",
    "C45_length_refuted",
    "C45_limit",
    "C45_mark_refuted",
    "C45_mtu",
    "C45_one",
    "C45_reserve_refuted"
   ],
   "note": "The limit is proved for every history (C45_limit, C45_mtu, C45_one). That no fragment is dropped for its size holds without reliability, or with no waiting Ack, or with no marking and no fragment of 253 or 254 octets (C45_fits_partial); otherwise it is false of the code: C45_mark_refuted (mark added after Acks filled the packet), C45_length_refuted (TLV-LENGTH growth), C45_reserve_refuted (an MTU of 23 leaves -1, taken as unlimited)."
  },
  {
   "property": "C46",
   "status": "proved",
   "theorems": [
    "C46_complete",
    "C46_decode",
    "C46_dropped",
    "C46_encode",
    "C46_receive"
   ],
   "note": "Exact: passed up iff well formed and allowed, with exactly the allowed tags; what is dropped silently; both directions of reception; encoding."
  },
  {
   "property": "C47",
   "status": "proved",
   "theorems": [
    "C47_decreasing",
    "C47_exact",
    "C47_interval",
    "C47_only",
    "C47_reset"
   ],
   "note": "Exact marking times within an incident (C47_exact), lower bound with any option changes (C47_only), reset, and the interval function b/sqrt(n), floored, is antitone. The floating-point sqrt is a parameter of the model; root_exact is its exact value."
  },
  {
   "property": "C48",
   "status": "proved",
   "theorems": [
    "C48_all",
    "C48_defined_refuted",
    "C48_framed",
    "C48_never_fails",
    "C48_packets",
    "C48_receive",
    "C48_room"
   ],
   "note": "Model Tp_Model: stream-transport.hpp receive path with Block::fromBuffer. Assertion failure found: C48_defined_refuted (received octets handled after a write error)."
  },
  {
   "property": "C49",
   "status": "proved",
   "theorems": [
    "C49_accepted",
    "C49_defined",
    "C49_defined_refuted",
    "C49_one",
    "C49_progress",
    "C49_queue",
    "C49_stream"
   ],
   "note": "For transports that do not reconnect; for permanent TCP faces C49_defined_refuted shows an assertion failure after reconnection."
  },
  {
   "property": "C50",
   "status": "proved",
   "theorems": [
    "C50_close",
    "C50_closes",
    "C50_connected",
    "C50_error",
    "C50_exception_refuted",
    "C50_final",
    "C50_idempotent",
    "C50_late_refuted",
    "C50_path",
    "C50_pending",
    "C50_persistency",
    "C50_reconnect",
    "C50_silent",
    "C50_timeout"
   ],
   "note": "C50_exception_refuted: close() while a buffer full of garbage waits to be handled makes setState throw."
  },
  {
   "property": "C51",
   "status": "proved",
   "theorems": [
    "C51_defined",
    "C51_hierarchy",
    "C51_present"
   ],
   "note": "Every history of insertions, removals and inherited-route changes; assertions never fail."
  },
  {
   "property": "C52",
   "status": "proved",
   "theorems": [
    "C52_erase",
    "C52_faces",
    "C52_faces_once_refuted",
    "C52_insert",
    "C52_size",
    "C52_unique"
   ],
   "note": "Full effect of insertion and removal, uniqueness, size, face removal. A face removal may list the same route twice (C52_faces_once_refuted): harmless."
  },
  {
   "property": "C53",
   "status": "partial",
   "theorems": [
    "C53_capture_partial",
    "C53_capture_refuted"
   ],
   "note": "Exact while no re-registration changes a route's capture flag. Otherwise false: C53_capture_refuted."
  },
  {
   "property": "C54",
   "status": "partial",
   "theorems": [
    "C54_capture_refuted",
    "C54_cheapest_refuted",
    "C54_cost_refuted",
    "C54_cut_refuted",
    "C54_defined_partial",
    "C54_defined_refuted",
    "C54_exact_partial",
    "C54_hidden_refuted",
    "C54_inherited_refuted",
    "C54_missing_refuted",
    "C54_nearest_refuted",
    "C54_update"
   ],
   "note": "exact FIB, and freedom from undefined behaviour, for every history of updates that meets safe_run: child-inherit and capture flags, one origin per prefix and face; a route that children do not inherit is not registered on a face the prefix inherits; a prefix starts to capture, or gives up a route that children inherit or the last capture, only while no shorter prefix has a route for its children on the same faces; re-registration keeps the capture flag. Outside that, nine refuted theorems exhibit histories where the FIB is wrong (missing nexthop, nexthop from behind a capture, wrong cost, stale cost) or a null pointer is dereferenced. What an update does to the RIB holds for every history"
  },
  {
   "property": "C55",
   "status": "partial",
   "theorems": [
    "C55_once_refuted",
    "C55_one_refuted",
    "C55_reports_partial",
    "C55_rib",
    "C55_serial_partial"
   ],
   "note": "The RIB follows the successful reports for every run; the order, the single report and the completeness of the answers are proved for runs in which the forwarder never says that the face of an update is gone while another command for it is under way. Outside of that the claim is false of the code: C55_once_refuted, C55_one_refuted."
  },
  {
   "property": "C56",
   "status": "partial",
   "theorems": [
    "C56_remove_refuted",
    "C56_retry",
    "C56_same_partial",
    "C56_times_partial"
   ],
   "note": "Bound, retry and frame are proved for every run; that the action is kept is proved for additions and is false for removals: C56_remove_refuted."
  },
  {
   "property": "C57",
   "status": "partial",
   "theorems": [
    "C57_asked",
    "C57_away_refuted",
    "C57_calm_partial",
    "C57_defined_refuted",
    "C57_delay",
    "C57_gateway",
    "C57_identity",
    "C57_nlsr",
    "C57_refresh_refuted",
    "C57_response",
    "C57_timer_partial",
    "C57_wanted_refuted"
   ],
   "note": "Holds in every run in which a prefix is not touched while a command about it is unanswered (C57_calm_partial, C57_timer_partial); signer, cost, delays and the effect of answers hold in every run. Without that restriction the claim is false of the code: C57_defined_refuted (use of an erased node), C57_refresh_refuted (assertion), C57_away_refuted, C57_wanted_refuted."
  },
  {
   "property": "C58",
   "status": "partial",
   "theorems": [
    "C58_contains",
    "C58_scope_refuted",
    "C58_single",
    "C58_valid",
    "C58_whole"
   ],
   "note": "Exact for all addresses without a scope, and for scoped ones except the last address of the subnet, which the code misses (C58_contains states this exactly, C58_scope_refuted gives fe80::1%2 and fe80::1/128). make_address is a parameter."
  },
  {
   "property": "C59",
   "status": "partial",
   "theorems": [
    "C59_address",
    "C59_ends",
    "C59_interface_partial",
    "C59_parse",
    "C59_throw_refuted"
   ],
   "note": "Exact for address predicates; for interface predicates if no ifname rule has a slash: such a rule is accepted and makes the predicate throw (C59_throw_refuted). make_address, fnmatch and the Ethernet address parser are parameters."
  },
  {
   "property": "C60",
   "status": "partial",
   "theorems": [
    "C60_again",
    "C60_best",
    "C60_best_one",
    "C60_choose_refuted",
    "C60_data",
    "C60_defined_refuted",
    "C60_expiry",
    "C60_hint_refuted",
    "C60_history",
    "C60_loop",
    "C60_nack",
    "C60_needed",
    "C60_new",
    "C60_probe",
    "C60_probe_timer",
    "C60_probed",
    "C60_probing_refuted",
    "C60_send",
    "C60_story",
    "C60_timeout",
    "C60_unsent_refuted"
   ],
   "note": "Proved: ranking, forwarding of new and pending Interests, probes, and the measurements as a function of the history. Refuted parts of the full claim (theorems _refuted): timeouts are counted for Interests that were not sent; a forwarding hint can hit the assertion in getOrCreateNamespaceInfo; with a forwarding hint answers are never accounted for; probing never happens when the FIB prefix is above the strategy's namespace; chooseFace can run off the end by rounding."
  },
  {
   "property": "C61",
   "status": "proved",
   "theorems": [
    "C61_defined",
    "C61_nexthops",
    "C61_region_change_refuted",
    "C61_stored"
   ],
   "note": "Forwarding hints select the routes used; C61_region_change_refuted shows a change of regions under pending Interests breaks it."
  },
  {
   "property": "C62",
   "status": "proved",
   "theorems": [
    "C62_acks",
    "C62_idle",
    "C62_timer"
   ],
   "note": "Acks attached plus Acks queued are the TxSequences received, in order, for every history."
  },
  {
   "property": "C63",
   "status": "proved",
   "theorems": [
    "C63_random"
   ],
   "note": "Event level, for every sequence of draws."
  },
  {
   "property": "C64",
   "status": "proved",
   "theorems": [
    "C64_datagram"
   ],
   "note": "UDP and other datagram transports."
  },
  {
   "property": "C65",
   "status": "partial",
   "theorems": [
    "C65_data",
    "C65_defined_refuted",
    "C65_loop",
    "C65_new",
    "C65_retx",
    "C65_timeout"
   ],
   "note": "C65_defined_refuted: Data governed by another strategy choice than the Interest fails an assertion in addPrefixMeasurements. The RTT estimators are parameters."
  },
  {
   "property": "C66",
   "status": "partial",
   "theorems": [
    "C66_data",
    "C66_data_refuted",
    "C66_found",
    "C66_interest",
    "C66_loop",
    "C66_lost_refuted",
    "C66_nack",
    "C66_nack_refuted"
   ],
   "note": "Proved for Data that matches one PIT entry (for several matching entries the forwarder itself answers). Refuted: that a Nack NoRoute is always processed (an assertion fails when there is no route), that everybody waiting gets the Data that arrives (not when it comes from a face the Interest was not sent to), that Data held back is always delivered (not when no announcement is found). Not modelled: the RIB's answer itself (an event), the strategy object captured by the callback."
  },
  {
   "property": "C67",
   "status": "partial",
   "theorems": [
    "C67_again",
    "C67_again_refuted",
    "C67_can",
    "C67_create",
    "C67_kinds",
    "C67_order",
    "C67_program",
    "C67_register",
    "C67_registered",
    "C67_same_type",
    "C67_same_type_refuted",
    "C67_short_refuted",
    "C67_unversioned",
    "C67_versioned"
   ],
   "note": "Proved in full for all names but /localhost, /localhost/nfd and /localhost/nfd/strategy. For these it is refuted: they are not names of strategies but create the self-learning strategy, with an instance name that leads to no strategy and does not count as the same type. How text is read as a floating point number is a parameter of the model. With this registry the contracts of C23, C24 and C26 are discharged (C23_nfd, C24_nfd, C26_nfd, C26_nfd_not_back)."
  },
  {
   "property": "C68",
   "status": "partial",
   "theorems": [
    "C68_defined_refuted",
    "C68_early_refuted",
    "C68_fire",
    "C68_gone_partial",
    "C68_gone_refuted",
    "C68_quiet",
    "C68_rib",
    "C68_timer"
   ],
   "note": "Proved when every update is reported in order and no removal failed; expiry before time and routes that linger are refuted with witnesses. Absolute liveness of the scheduler and the FIB is an assumption of the events."
  },
  {
   "property": "C69",
   "status": "partial",
   "theorems": [
    "C69_announce",
    "C69_announced",
    "C69_faces",
    "C69_find_ann",
    "C69_list",
    "C69_list_refuted",
    "C69_longest_refuted",
    "C69_register",
    "C69_sl_announce",
    "C69_sl_renew",
    "C69_unregister"
   ],
   "note": "All commands and queries characterised; registerTopPrefix and the scheduling of the active face fetch are not modelled; the longest match of renewal and non-negative remaining times are refuted."
  },
  {
   "property": "C70",
   "status": "partial",
   "theorems": [
    "C70_accept",
    "C70_answer",
    "C70_atomic_refuted",
    "C70_config",
    "C70_correct",
    "C70_defined",
    "C70_failed",
    "C70_late"
   ],
   "note": "Proved for all histories and configurations; C70_atomic_refuted shows that a failed configuration is not rolled back."
  },
  {
   "property": "C71",
   "status": "partial",
   "theorems": [
    "C71_dry",
    "C71_error",
    "C71_number",
    "C71_order",
    "C71_range_refuted",
    "C71_start",
    "C71_unknown",
    "C71_yes_no"
   ],
   "note": "Order, dry run, start-up, yes/no and number texts proved; C71_range_refuted: a handler failing with std::out_of_range counts as absent."
  },
  {
   "property": "C72",
   "status": "partial",
   "theorems": [
    "C72_applied",
    "C72_atomic_refuted",
    "C72_dry",
    "C72_ensure",
    "C72_failed",
    "C72_real"
   ],
   "note": "proved for every section and reachable state: dry run, real run, what is applied, what a failed run leaves. That a section which fails changes nothing, and that a section the dry run accepts can be applied, are false: C72_atomic_refuted."
  },
  {
   "property": "C73",
   "status": "proved",
   "theorems": [
    "C73_add",
    "C73_list_choices",
    "C73_list_fib",
    "C73_remove",
    "C73_set",
    "C73_status",
    "C73_unset"
   ],
   "note": "for every reachable state and any strategies; decoding of parameters, the text of answers, version and time stamps are not modelled"
  },
  {
   "property": "C74",
   "status": "proved",
   "theorems": [
    "C74_create",
    "C74_create_answered",
    "C74_create_codes",
    "C74_create_request",
    "C74_destroy",
    "C74_expiry",
    "C74_history",
    "C74_later",
    "C74_list",
    "C74_local",
    "C74_mtu",
    "C74_query",
    "C74_reconnect",
    "C74_sized",
    "C74_state",
    "C74_update"
   ],
   "note": "Fm_Model/Fm_Spec/Fm_Props: the face manager on a table of faces; decoding of commands, reason texts and the order of rows are not modelled; factories are C75"
  },
  {
   "property": "C75",
   "status": "partial",
   "theorems": [
    "C75_accepted",
    "C75_addresses",
    "C75_answered",
    "C75_connected",
    "C75_deaf",
    "C75_deaf_peers",
    "C75_defined",
    "C75_destroyed_refuted",
    "C75_listen_refuted",
    "C75_local",
    "C75_local_refuted",
    "C75_manager",
    "C75_once_partial",
    "C75_one",
    "C75_one_uri",
    "C75_peer",
    "C75_tcp_command",
    "C75_tcp_refused",
    "C75_timeout",
    "C75_twice_refuted",
    "C75_udp_command",
    "C75_udp_refused"
   ],
   "note": "All clauses proved for all histories of commands, handlers, timeouts, peers and state changes. At most one answer is proved only for histories in which a connect timeout does not fire while the connect handler is queued (C75_once_partial); the general claim is refuted (C75_twice_refuted: 504 then 500). Also refuted: definedness when the configured local addresses omit loopback (C75_local_refuted), continued listening after one failure (C75_listen_refuted), and that a destroyed face is no longer reported (C75_destroyed_refuted). Multicast faces, Ethernet, Unix stream and WebSocket channels are not modelled."
  },
  {
   "property": "C76",
   "status": "partial",
   "theorems": [
    "C76_address",
    "C76_address_refuted",
    "C76_atomic_refuted",
    "C76_channels",
    "C76_dry",
    "C76_dry_refuted",
    "C76_ether",
    "C76_ether_options",
    "C76_ether_stuck",
    "C76_general_options",
    "C76_group_refuted",
    "C76_groups",
    "C76_listening_refuted",
    "C76_netdev",
    "C76_netdev_refuted",
    "C76_netif",
    "C76_numbers",
    "C76_process",
    "C76_reload",
    "C76_schemes",
    "C76_tcp",
    "C76_tcp_options",
    "C76_udp",
    "C76_udp_options",
    "C76_unix",
    "C76_unix_options",
    "C76_unix_removed",
    "C76_ws",
    "C76_ws_options"
   ],
   "note": "Proved for the model of face_system and all factories. Six expected statements are refuted: C76_group, C76_address, C76_dry, C76_netdev, C76_atomic, C76_listening (_refuted)."
  },
  {
   "property": "C77",
   "status": "partial",
   "theorems": [
    "C77_channel_filter",
    "C77_closed_last",
    "C77_deaf_refuted",
    "C77_fields",
    "C77_filter_check",
    "C77_filter_text",
    "C77_frame",
    "C77_header",
    "C77_idle",
    "C77_idle_closes",
    "C77_idle_stays",
    "C77_listening",
    "C77_mac_text",
    "C77_mcast_filter",
    "C77_mtu",
    "C77_mtu_refuted",
    "C77_netif",
    "C77_new",
    "C77_new_mcast",
    "C77_no_timer",
    "C77_one_taker",
    "C77_race_refuted",
    "C77_receive",
    "C77_round_trip",
    "C77_send",
    "C77_stale_refuted",
    "C77_states",
    "C77_timer",
    "C77_unicast_filter",
    "C77_wait_error"
   ],
   "note": "Proved under the conditions of the theorems: packets fit the MTU and no face is closed between the completion of a wait and its handler; both conditions are shown necessary, and two more expectations are refuted."
  },
  {
   "property": "C78",
   "status": "partial",
   "theorems": [
    "C78_arrive",
    "C78_at_most_once",
    "C78_carries",
    "C78_closed",
    "C78_closing",
    "C78_connect_known",
    "C78_connect_new",
    "C78_deaf_refuted",
    "C78_delivery",
    "C78_drain_refuted",
    "C78_escape_refuted",
    "C78_face_reads",
    "C78_filter",
    "C78_group_refuted",
    "C78_half_face_refuted",
    "C78_incoming_bad",
    "C78_incoming_known",
    "C78_incoming_new",
    "C78_junk_refuted",
    "C78_listen",
    "C78_listen_again",
    "C78_listen_failed_refuted",
    "C78_one_face",
    "C78_order_refuted",
    "C78_refusals",
    "C78_table",
    "C78_twice_refuted",
    "C78_window_refuted"
   ],
   "note": "Exactly-once delivery is proved for histories without failures, closing and arrivals during the making of a face, if setting a filter discards nothing; the refuted theorems show what goes wrong otherwise. Table, filter and requests are proved for all histories."
  },
  {
   "property": "C79",
   "status": "partial",
   "theorems": [
    "C79_bad_message",
    "C79_close",
    "C79_closed",
    "C79_dead_peer",
    "C79_defaults",
    "C79_escape_refuted",
    "C79_live_peer",
    "C79_loopback",
    "C79_message",
    "C79_no_exception",
    "C79_open",
    "C79_others",
    "C79_oversize_refuted",
    "C79_ping",
    "C79_pong",
    "C79_pong_timeout",
    "C79_send",
    "C79_slow_refuted",
    "C79_states",
    "C79_told",
    "C79_two_packets_refuted"
   ],
   "note": "All parts are proved for the environment described in Ws_Spec; partial because of an exception when the peer is gone before its connection is reported, and because the API allows timer settings that disable the detection of dead peers (refuted theorems)."
  },
  {
   "property": "C80",
   "status": "partial",
   "theorems": [
    "C80_abort_refuted",
    "C80_alias",
    "C80_batch_error_partial",
    "C80_batch_exit_refuted",
    "C80_batch_file_partial",
    "C80_batch_partial",
    "C80_batch_runs",
    "C80_batch_usage",
    "C80_by_name",
    "C80_command",
    "C80_comment",
    "C80_comment_refuted",
    "C80_declare",
    "C80_escape_refuted",
    "C80_face_id_refuted",
    "C80_help_exit_refuted",
    "C80_information",
    "C80_join",
    "C80_line",
    "C80_line_bad",
    "C80_line_throws",
    "C80_line_words",
    "C80_one_shot",
    "C80_parse",
    "C80_process",
    "C80_quote_refuted",
    "C80_register",
    "C80_round_trip",
    "C80_run",
    "C80_syntax_partial",
    "C80_twice_refuted",
    "C80_typed",
    "C80_unambiguous",
    "C80_usage_exit_refuted",
    "C80_values"
   ],
   "note": "Reading of command lines and lines of batch files is characterised in both directions for all inputs. The batch theorems are restricted to files without backslashes other than at the ends of lines: with others the claim is false (C80_escape_refuted, C80_comment_refuted, C80_abort_refuted); the exit codes are not all as documented (C80_help_exit_refuted, C80_usage_exit_refuted, C80_batch_exit_refuted)."
  },
  {
   "property": "C81",
   "status": "partial",
   "theorems": [
    "C81_alive",
    "C81_exit",
    "C81_exit_exception",
    "C81_identity_refuted",
    "C81_lost_change_refuted",
    "C81_malformed_refuted",
    "C81_orderly",
    "C81_overlap_refuted",
    "C81_start",
    "C81_story",
    "C81_success",
    "C81_throws",
    "C81_times"
   ],
   "note": "Stages, multicast discovery and the daemon's timing are modelled; the contents of DNS answers and the signatures of hub Data are parameters. Refuted in full: a malformed hub Data, a missing default identity or a network change during multicast discovery ends the daemon, and a network change in the last five seconds of a run is forgotten."
  },
  {
   "property": "C82",
   "status": "partial",
   "theorems": [
    "C82_local_refuted",
    "C82_no_address_refuted",
    "C82_once",
    "C82_registers",
    "C82_runs"
   ],
   "note": "Proved for the filtering of faces and the registrations sent; the answers to them are only printed. Refuted in full: local faces that exist at start-up get the prefixes for non-local faces, and a host that is no address is taken for 0.0.0.0."
  },
  {
   "property": "C83",
   "status": "partial",
   "theorems": [
    "C83_accept",
    "C83_accept_refuted",
    "C83_bound_refuted",
    "C83_denied",
    "C83_exit_refuted",
    "C83_file",
    "C83_one",
    "C83_restart",
    "C83_start",
    "C83_steal_refuted"
   ],
   "note": "Proved for starts that do not interleave, and for files that are no sockets for all interleavings. Refuted in full: two instances that start at once can remove each other's socket (a left-over socket, or one bound but not yet listening); an instance that ends removes the path even if it is another's socket; one failure to accept ends accepting for good."
  },
  {
   "property": "C84",
   "status": "partial",
   "theorems": [
    "C84_alive",
    "C84_bounded",
    "C84_ends",
    "C84_exit",
    "C84_fails",
    "C84_hang_refuted",
    "C84_rest"
   ],
   "note": "Proved for all schedules, except the deadlock that the code has (refuted): if the RIB thread fails before the main thread has looked at ribIo, the main thread waits for ever. What the threads do while they run is not part of this model."
  },
  {
   "property": "C85",
   "status": "partial",
   "theorems": [
    "C85_config",
    "C85_early_refuted",
    "C85_elevated",
    "C85_groups_refuted",
    "C85_history",
    "C85_reload_refuted",
    "C85_start",
    "C85_unprivileged"
   ],
   "note": "Proved against the rules of seteuid and setegid. Refuted in full: supplementary groups are kept; an elevated function during the start drops the privileges before the start is over; a reload with another user does not change the process until the next elevated function."
  },
  {
   "property": "C86",
   "status": "partial",
   "theorems": [
    "C86_levels",
    "C86_second_refuted",
    "C86_stays_refuted"
   ],
   "note": "Proved for one module at a time, with Logging::setLevel of ndn-cxx modelled by its effect on a module. Refuted in full: a second default_level is ignored and not checked; the level of a module that is not of NFD stays when its entry is removed."
  },
  {
   "property": "C87",
   "status": "partial",
   "theorems": [
    "C87_bounds",
    "C87_bounds_needed",
    "C87_dots_refuted",
    "C87_failure",
    "C87_owner_refuted",
    "C87_port",
    "C87_priority_refuted",
    "C87_record",
    "C87_type_refuted"
   ],
   "note": "Proved for records whose owner is written in two octets (a pointer): target and port are those of the first record; failing queries and empty answers are errors whatever the buffer holds; no reading beyond the buffer for questions of at most 255 octets (without the limit there is: C87_bounds_needed). Refuted in general: an owner of another length gives a wrong port, the type and priority of records are not looked at, and identities with dots in components are confused. The resolver's functions that read names are parameters."
  }
 ]
}