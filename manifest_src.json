{
 "C01": {
  "status": "proved",
  "note": "every history of content-store operations, no assumption on packets; the limit is the one last configured"
 },
 "C02": {
  "status": "proved",
  "note": "soundness for every packet; completeness and canonical choice for Data whose names carry no implicit-digest component; the refuted theorem shows the exception is real"
 },
 "C03": {
  "status": "proved",
  "note": "refusal, re-insertion and new insertion; deadline arithmetic exact away from 64-bit overflow, overflow exhibited"
 },
 "C04": {
  "status": "proved",
  "note": "table erase exact; management erase exact while serving is on, refuted when off"
 },
 "C05": {
  "status": "proved",
  "note": "stated on histories through last use times"
 },
 "C06": {
  "status": "proved",
  "note": "queue order of evictions, class on arrival, freshness timers"
 },
 "C07": {
  "status": "proved",
  "note": "no failed assertion in any history; queues partition the cached packets; refinement to the abstract store"
 },
 "C08": {
  "status": "proved",
  "note": "For every hash function, history and hash-table choice. The reserved fingerprint 0 is a counterexample to the stronger claim (C08_reserved_value_refuted)."
 },
 "C09": {
  "status": "proved",
  "note": "Includes IEEE-754 rounding of the 0.9/1.2 factors."
 },
 "C10": {
  "status": "proved",
  "note": "Concrete hash-table tree proved to be a prefix-closed finite map for every hash function, options and history."
 },
 "C11": {
  "status": "proved",
  "note": "Concrete hash-table tree proved to be a prefix-closed finite map for every hash function, options and history."
 },
 "C12": {
  "status": "proved",
  "note": "Concrete hash-table tree proved to be a prefix-closed finite map for every hash function, options and history."
 },
 "C13": {
  "status": "proved",
  "note": "All histories of all four tables sharing one name tree, face removal and time; the entry used is exactly that of the longest registered prefix; frame conditions on every other prefix and table."
 },
 "C14": {
  "status": "proved",
  "note": "Sortedness and uniqueness as invariants of every history; exact effect of add, update and remove on costs."
 },
 "C15": {
  "status": "partial",
  "note": "Size exact. The announced nexthop is proved to be the new one only when it is dearer than all others; C15_signal_refuted shows NFD announces a wrong nexthop otherwise, and C15_erase_absent_refuted that erasing a prefix without entry corrupts the size."
 },
 "C16": {
  "status": "partial",
  "note": "Insert, erase, uniqueness and size exact. find agrees with insert unless the name tree holds a dangling entry; C16_find_refuted shows removing the last nexthop creates one, so the assertion fires."
 },
 "C17": {
  "status": "proved",
  "note": "Against the declarative satisfaction relation of the content store specification."
 },
 "C18": {
  "status": "proved",
  "note": "Record uniqueness, expiry with the ten-day cap, and exact effect of face removal on FIB and PIT."
 },
 "C19": {
  "status": "partial",
  "note": "Nack recorded iff nonce matches; new out-records have none. C19_resend_refuted: re-sending on the same face keeps the stale Nack."
 },
 "C20": {
  "status": "proved",
  "note": "Longest-prefix inheritance, exact effect of set/unset, the default never disappears, size."
 },
 "C21": {
  "status": "partial",
  "note": "Exact for measurements and FIB entries at every name and for PIT entries hanging on their own name; C21_digest_refuted shows PIT entries whose name ends in a digest keep the old strategy's information."
 },
 "C22": {
  "status": "proved",
  "note": "Lifetime, extension, expiry, creation through get/get(pit entry)/getParent, longest-prefix match."
 },
 "C23": {
  "status": "partial",
  "note": "Interest and Data: proved in every state. Nack: proved when every strategy respects scope and no Interest carried NextHopFaceId; the unconditional Nack claim is refuted by C23_nack_refuted."
 },
 "C24": {
  "status": "proved",
  "note": "Holds on every path except the NextHopFaceId one, which the statement excludes."
 },
 "C25": {
  "status": "proved",
  "note": ""
 },
 "C26": {
  "status": "proved",
  "note": ""
 },
 "C27": {
  "status": "proved",
  "note": "C27_token_many_refuted shows Data that satisfies several entries is sent without PIT tokens."
 },
 "C28": {
  "status": "proved",
  "note": "Loop detection, acceptance and recording of nonces, over every reachable history."
 },
 "C29": {
  "status": "proved",
  "note": "Every pending Interest has a timer, it fires at its time, only it removes the entry, and what time it is set to. C29_set is for strategies that leave the timer alone or reject (expire at once); self-learning and ASF set other times."
 },
 "C30": {
  "status": "proved",
  "note": "What an incoming Nack changes and what it cannot."
 },
 "C31": {
  "status": "proved",
  "note": ""
 },
 "C32": {
  "status": "proved",
  "note": ""
 },
 "C33": {
  "status": "proved",
  "note": "After a face is gone no table mentions it and nothing is sent on it."
 },
 "C34": {
  "status": "proved",
  "note": "Fresh face ids over every history."
 },
 "C35": {
  "status": "proved",
  "note": "Satisfied and unsatisfied counters count PIT entries exactly once, at removal."
 },
 "C36": {
  "status": "proved",
  "note": "Event level: from the arrival of the Interest at the forwarder to everything sent. New, suppressed and retransmitted Interests; the suppression interval after each."
 },
 "C37": {
  "status": "proved",
  "note": "C37_forward is at event level (exact set of Interests sent, and the suppression interval of each nexthop afterwards). C37_newhop is about the trigger for one PIT entry."
 },
 "C38": {
  "status": "proved",
  "note": "Floating point is modelled as IEEE-754 binary32 with round-to-nearest-even. Refuted: a NaN or huge multiplier is accepted by the constructor and leads to undefined behaviour; the interval may exceed the configured maximum when the initial one is stored under another configuration."
 },
 "C39": {
  "status": "proved",
  "note": "Event level. The code counts all out-records, also expired ones; the property is stated so. Multicast sends no Nack in return (C39_multicast)."
 },
 "C40": {
  "status": "proved",
  "note": "Round trip through fragmenter, sequence assignment and reassembler, for every interleaving; the block parser of ndn-cxx is a parameter."
 },
 "C41": {
  "status": "proved",
  "note": "Sizes are those of the NDNLPv2 encoding, computed field by field."
 },
 "C42": {
  "status": "proved",
  "note": "Every history of a reassembler, with arbitrary packets."
 },
 "C43": {
  "status": "proved",
  "note": "All histories of sends, receptions, timeouts and idle timers; the only undefined case is 2^64 TxSequences between the oldest outstanding and the newest. C43_trace_refuted: with TRACE logging a retransmission reads an erased fragment."
 },
 "C44": {
  "status": "partial",
  "note": "C44_complete_partial covers the first accepted copy; C44_complete_refuted shows the full statement is false when the earlier copy is itself a duplicate."
 },
 "C45": {
  "status": "partial",
  "note": "The limit is proved for every history (C45_limit, C45_mtu, C45_one). That no fragment is dropped for its size holds without reliability, or with no waiting Ack, or with no marking and no fragment of 253 or 254 octets (C45_fits_partial); otherwise it is false of the code: C45_mark_refuted (mark added after Acks filled the packet), C45_length_refuted (TLV-LENGTH growth), C45_reserve_refuted (an MTU of 23 leaves -1, taken as unlimited)."
 },
 "C46": {
  "status": "proved",
  "note": "Exact: passed up iff well formed and allowed, with exactly the allowed tags; what is dropped silently; both directions of reception; encoding."
 },
 "C47": {
  "status": "proved",
  "note": "Exact marking times within an incident (C47_exact), lower bound with any option changes (C47_only), reset, and the interval function b/sqrt(n), floored, is antitone. The floating-point sqrt is a parameter of the model; root_exact is its exact value."
 },
 "C48": {
  "status": "proved",
  "note": "Model Tp_Model: stream-transport.hpp receive path with Block::fromBuffer. Assertion failure found: C48_defined_refuted (received octets handled after a write error)."
 },
 "C49": {
  "status": "proved",
  "note": "For transports that do not reconnect; for permanent TCP faces C49_defined_refuted shows an assertion failure after reconnection."
 },
 "C50": {
  "status": "proved",
  "note": "C50_exception_refuted: close() while a buffer full of garbage waits to be handled makes setState throw."
 },
 "C51": {
  "status": "proved",
  "note": "Every history of insertions, removals and inherited-route changes; assertions never fail."
 },
 "C52": {
  "status": "proved",
  "note": "Full effect of insertion and removal, uniqueness, size, face removal. A face removal may list the same route twice (C52_faces_once_refuted): harmless."
 },
 "C53": {
  "status": "partial",
  "note": "Exact while no re-registration changes a route's capture flag. Otherwise false: C53_capture_refuted."
 },
 "C54": {
  "status": "partial",
  "note": "exact FIB, and freedom from undefined behaviour, for every history of updates that meets safe_run: child-inherit and capture flags, one origin per prefix and face; a route that children do not inherit is not registered on a face the prefix inherits; a prefix starts to capture, or gives up a route that children inherit or the last capture, only while no shorter prefix has a route for its children on the same faces; re-registration keeps the capture flag. Outside that, nine refuted theorems exhibit histories where the FIB is wrong (missing nexthop, nexthop from behind a capture, wrong cost, stale cost) or a null pointer is dereferenced. What an update does to the RIB holds for every history"
 },
 "C55": {
  "status": "partial",
  "note": "The RIB follows the successful reports for every run; the order, the single report and the completeness of the answers are proved for runs in which the forwarder never says that the face of an update is gone while another command for it is under way. Outside of that the claim is false of the code: C55_once_refuted, C55_one_refuted."
 },
 "C56": {
  "status": "partial",
  "note": "Bound, retry and frame are proved for every run; that the action is kept is proved for additions and is false for removals: C56_remove_refuted."
 },
 "C57": {
  "status": "partial",
  "note": "Holds in every run in which a prefix is not touched while a command about it is unanswered (C57_calm_partial, C57_timer_partial); signer, cost, delays and the effect of answers hold in every run. Without that restriction the claim is false of the code: C57_defined_refuted (use of an erased node), C57_refresh_refuted (assertion), C57_away_refuted, C57_wanted_refuted."
 },
 "C58": {
  "status": "partial",
  "note": "Exact for all addresses without a scope, and for scoped ones except the last address of the subnet, which the code misses (C58_contains states this exactly, C58_scope_refuted gives fe80::1%2 and fe80::1/128). make_address is a parameter."
 },
 "C59": {
  "status": "partial",
  "note": "Exact for address predicates; for interface predicates if no ifname rule has a slash: such a rule is accepted and makes the predicate throw (C59_throw_refuted). make_address, fnmatch and the Ethernet address parser are parameters."
 },
 "C60": {
  "status": "partial",
  "note": "Proved: ranking, forwarding of new and pending Interests, probes, and the measurements as a function of the history. Refuted parts of the full claim (theorems _refuted): timeouts are counted for Interests that were not sent; a forwarding hint can hit the assertion in getOrCreateNamespaceInfo; with a forwarding hint answers are never accounted for; probing never happens when the FIB prefix is above the strategy's namespace; chooseFace can run off the end by rounding."
 },
 "C61": {
  "status": "proved",
  "note": "Forwarding hints select the routes used; C61_region_change_refuted shows a change of regions under pending Interests breaks it."
 },
 "C62": {
  "status": "proved",
  "note": "Acks attached plus Acks queued are the TxSequences received, in order, for every history."
 },
 "C63": {
  "status": "proved",
  "note": "Event level, for every sequence of draws."
 },
 "C64": {
  "status": "proved",
  "note": "UDP and other datagram transports."
 },
 "C65": {
  "status": "partial",
  "note": "C65_defined_refuted: Data governed by another strategy choice than the Interest fails an assertion in addPrefixMeasurements. The RTT estimators are parameters."
 },
 "C66": {
  "status": "partial",
  "note": "Proved for Data that matches one PIT entry (for several matching entries the forwarder itself answers). Refuted: that a Nack NoRoute is always processed (an assertion fails when there is no route), that everybody waiting gets the Data that arrives (not when it comes from a face the Interest was not sent to), that Data held back is always delivered (not when no announcement is found). Not modelled: the RIB's answer itself (an event), the strategy object captured by the callback."
 },
 "C67": {
  "status": "partial",
  "note": "Proved in full for all names but /localhost, /localhost/nfd and /localhost/nfd/strategy. For these it is refuted: they are not names of strategies but create the self-learning strategy, with an instance name that leads to no strategy and does not count as the same type. How text is read as a floating point number is a parameter of the model. With this registry the contracts of C23, C24 and C26 are discharged (C23_nfd, C24_nfd, C26_nfd, C26_nfd_not_back)."
 },
 "C68": {
  "status": "partial",
  "note": "Proved when every update is reported in order and no removal failed; expiry before time and routes that linger are refuted with witnesses. Absolute liveness of the scheduler and the FIB is an assumption of the events."
 },
 "C69": {
  "status": "partial",
  "note": "All commands and queries characterised; registerTopPrefix and the scheduling of the active face fetch are not modelled; the longest match of renewal and non-negative remaining times are refuted."
 },
 "C70": {
  "status": "partial",
  "note": "Proved for all histories and configurations; C70_atomic_refuted shows that a failed configuration is not rolled back."
 },
 "C71": {
  "status": "partial",
  "note": "Order, dry run, start-up, yes/no and number texts proved; C71_range_refuted: a handler failing with std::out_of_range counts as absent."
 },
 "C72": {
  "status": "partial",
  "note": "proved for every section and reachable state: dry run, real run, what is applied, what a failed run leaves. That a section which fails changes nothing, and that a section the dry run accepts can be applied, are false: C72_atomic_refuted."
 },
 "C73": {
  "status": "proved",
  "note": "for every reachable state and any strategies; decoding of parameters, the text of answers, version and time stamps are not modelled"
 },
 "C74": {
  "status": "proved",
  "note": "Fm_Model/Fm_Spec/Fm_Props: the face manager on a table of faces; decoding of commands, reason texts and the order of rows are not modelled; factories are C75"
 },
 "C75": {
  "status": "partial",
  "note": "All clauses proved for all histories of commands, handlers, timeouts, peers and state changes. At most one answer is proved only for histories in which a connect timeout does not fire while the connect handler is queued (C75_once_partial); the general claim is refuted (C75_twice_refuted: 504 then 500). Also refuted: definedness when the configured local addresses omit loopback (C75_local_refuted), continued listening after one failure (C75_listen_refuted), and that a destroyed face is no longer reported (C75_destroyed_refuted). Multicast faces, Ethernet, Unix stream and WebSocket channels are not modelled."
 },
 "C76": {
  "status": "partial",
  "note": "Proved for the model of face_system and all factories. Six expected statements are refuted: C76_group, C76_address, C76_dry, C76_netdev, C76_atomic, C76_listening (_refuted)."
 },
 "C77": {
  "status": "partial",
  "note": "Proved under the conditions of the theorems: packets fit the MTU and no face is closed between the completion of a wait and its handler; both conditions are shown necessary, and two more expectations are refuted."
 },
 "C78": {
  "status": "partial",
  "note": "Exactly-once delivery is proved for histories without failures, closing and arrivals during the making of a face, if setting a filter discards nothing; the refuted theorems show what goes wrong otherwise. Table, filter and requests are proved for all histories."
 },
 "C79": {
  "status": "partial",
  "note": "All parts are proved for the environment described in Ws_Spec; partial because of an exception when the peer is gone before its connection is reported, and because the API allows timer settings that disable the detection of dead peers (refuted theorems)."
 },
 "C80": {
  "status": "partial",
  "note": "Reading of command lines and lines of batch files is characterised in both directions for all inputs. The batch theorems are restricted to files without backslashes other than at the ends of lines: with others the claim is false (C80_escape_refuted, C80_comment_refuted, C80_abort_refuted); the exit codes are not all as documented (C80_help_exit_refuted, C80_usage_exit_refuted, C80_batch_exit_refuted)."
 },
 "C81": {
  "status": "partial",
  "note": "Stages, multicast discovery and the daemon's timing are modelled; the contents of DNS answers and the signatures of hub Data are parameters. Refuted in full: a malformed hub Data, a missing default identity or a network change during multicast discovery ends the daemon, and a network change in the last five seconds of a run is forgotten."
 },
 "C82": {
  "status": "partial",
  "note": "Proved for the filtering of faces and the registrations sent; the answers to them are only printed. Refuted in full: local faces that exist at start-up get the prefixes for non-local faces, and a host that is no address is taken for 0.0.0.0."
 },
 "C83": {
  "status": "partial",
  "note": "Proved for starts that do not interleave, and for files that are no sockets for all interleavings. Refuted in full: two instances that start at once can remove each other's socket (a left-over socket, or one bound but not yet listening); an instance that ends removes the path even if it is another's socket; one failure to accept ends accepting for good."
 },
 "C84": {
  "status": "partial",
  "note": "Proved for all schedules, except the deadlock that the code has (refuted): if the RIB thread fails before the main thread has looked at ribIo, the main thread waits for ever. What the threads do while they run is not part of this model."
 },
 "C85": {
  "status": "partial",
  "note": "Proved against the rules of seteuid and setegid. Refuted in full: supplementary groups are kept; an elevated function during the start drops the privileges before the start is over; a reload with another user does not change the process until the next elevated function."
 },
 "C86": {
  "status": "partial",
  "note": "Proved for one module at a time, with Logging::setLevel of ndn-cxx modelled by its effect on a module. Refuted in full: a second default_level is ignored and not checked; the level of a module that is not of NFD stays when its entry is removed."
 },
 "C87": {
  "status": "partial",
  "note": "Proved for records whose owner is written in two octets (a pointer): target and port are those of the first record; failing queries and empty answers are errors whatever the buffer holds; no reading beyond the buffer for questions of at most 255 octets (without the limit there is: C87_bounds_needed). Refuted in general: an owner of another length gives a wrong port, the type and priority of records are not looked at, and identities with dots in components are confused. The resolver's functions that read names are parameters."
 }
}