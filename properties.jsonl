{"id": "C01", "title": "Content store never exceeds its capacity", "statement": "After any sequence of insert / find / erase / setLimit / setPolicy / admit- and serve-switch operations (and of freshness timers for the priority_fifo policy) the number of packets in the content store is at most the configured limit, for both the lru and the priority_fifo policy; lowering the limit evicts at once; a limit of zero admits nothing.", "quantifier": "every finite sequence of CS operations, every limit, both eviction policies, every schedule of the freshness timers", "why_tests_cant": "capacity can be changed, admission switched and packets refreshed, expired or evicted in any order; the bound must survive every such sequence under both policies, and a test runs a few", "anchors": ["daemon/table/cs.cpp: Cs::insert, Cs::setPolicy", "daemon/table/cs-policy.cpp: Policy::setLimit", "daemon/table/cs-policy-lru.cpp: LruPolicy::evictEntries", "daemon/table/cs-policy-priority-fifo.cpp: PriorityFifoPolicy::evictEntries"]}
{"id": "C02", "title": "Content store lookup is sound, complete and deterministic", "statement": "find(interest) answers with a cached packet that satisfies the Interest (name equality, prefix match under CanBePrefix, implicit digest, and freshness under MustBeFresh) and it answers a miss only when no cached packet satisfies it; when several satisfy it, the first one in canonical name order is returned.", "quantifier": "every content-store state reachable by any history, every Interest, every clock value", "why_tests_cant": "depends on the canonical order of arbitrary names and on the prefix range being contiguous in that order, for unboundedly many names", "anchors": ["daemon/table/cs.cpp: Cs::findPrefixRange, Cs::findImpl", "daemon/table/cs-entry.cpp: Entry::canSatisfy, operator<"]}
{"id": "C03", "title": "Content store insertion is idempotent per packet and refreshes it", "statement": "Inserting a packet that is already cached never creates a second copy: it renews the freshness deadline and, if the new arrival is solicited, clears the unsolicited mark. A newly admitted packet is retrievable unless it was chosen for eviction; a packet marked no-cache, or inserted while admission is off or the limit is 0, changes nothing.", "quantifier": "every reachable content-store state, every Data packet, both policies", "why_tests_cant": "what a re-insertion does depends on where the packet stands in the eviction queues and on the timer of its earlier insertion, hence on the whole history", "anchors": ["daemon/table/cs.cpp: Cs::insert", "daemon/table/cs-entry.cpp: Entry::updateFreshUntil"]}
{"id": "C04", "title": "Content store erase removes exactly the first n packets under a prefix", "statement": "erase(prefix, n) removes min(n, number of cached packets under prefix) packets, namely the first ones in canonical order, reports that number, and leaves every other packet (and its freshness and eviction rank) untouched.", "quantifier": "every reachable content-store state, every prefix and limit", "why_tests_cant": "which packets are first under a prefix depends on the canonical order of all cached names, and the limit falls at any point among them", "anchors": ["daemon/table/cs.cpp: Cs::eraseImpl, Cs::findPrefixRange", "daemon/mgmt/cs-manager.cpp: CsManager::erase"]}
{"id": "C05", "title": "LRU evicts the least recently used packet", "statement": "With the lru policy the packets remaining after evictions are exactly the most recently used ones, where a use is an insertion, a re-insertion or a lookup hit.", "quantifier": "every history of operations", "why_tests_cant": "recency is a fact about the whole history of insertions and hits; a wrong update shows only when the packet next in line comes to be evicted", "anchors": ["daemon/table/cs-policy-lru.cpp: LruPolicy"]}
{"id": "C06", "title": "priority_fifo evicts unsolicited, then stale, then oldest", "statement": "With the priority_fifo policy a packet is evicted only if no lower-ranked packet exists: unsolicited packets go first, then stale ones, then fresh ones, and inside one class the one queued earliest goes first.", "quantifier": "every history of operations and every schedule of freshness timers", "why_tests_cant": "a packet moves between three queues by arrival, refresh and timers; the order of evictions depends on all these moves and on timers firing between any two operations", "anchors": ["daemon/table/cs-policy-priority-fifo.cpp: PriorityFifoPolicy::evictOne, attachQueue, detachQueue, moveToStaleQueue"]}
{"id": "C07", "title": "Eviction bookkeeping never goes out of step with the content store", "statement": "At every point every cached packet is in exactly one eviction queue and no queue refers to a packet that is not cached, so no internal assertion about the queues can fail and no dangling iterator is used.", "quantifier": "every history of operations and timers, both policies", "why_tests_cant": "the policy's queues and the table are separate containers kept in step by callbacks; they drift apart only after particular sequences of insertion, refresh, expiry, erasure and capacity change", "anchors": ["daemon/table/cs-policy-lru.cpp", "daemon/table/cs-policy-priority-fifo.cpp"]}
{"id": "C08", "title": "Dead nonce list remembers added nonces", "statement": "After add(name, nonce), has(name, nonce) is true as long as, at every later moment, the number of insertions since then is below the capacity at that moment (in particular for at least 1023 later insertions); a nonce never added is reported only if its 64-bit fingerprint equals that of an added one or is the reserved value 0.", "quantifier": "every history of add / mark / adjust operations; every hash function", "why_tests_cant": "it ranges over every interleaving of additions, period marks and capacity adjustments, over every hash function and over every choice the hash table may make among equal entries", "anchors": ["daemon/table/dead-nonce-list.cpp: DeadNonceList::add, has, evictEntries"]}
{"id": "C09", "title": "Dead nonce list capacity stays within its bounds and evicts oldest first", "statement": "The adaptive capacity always lies between 2^10 and 2^24 entries, each adjustment multiplies it by exactly 0.9 or 1.2 (rounded down, clipped) or keeps it according to the mark counts seen since the previous one, one operation evicts exactly min(excess, 64) entries, and what remains is always the most recently added part of everything ever added.", "quantifier": "every history of add / mark / adjust operations in every interleaving", "why_tests_cant": "the capacity is the result of an unbounded chain of floating-point adjustments and the retained set depends on the whole history", "anchors": ["daemon/table/dead-nonce-list.cpp: mark, adjustCapacity, evictEntries"]}
{"id": "C10", "title": "Name tree hash table implements a finite map under growth and shrinking", "statement": "Insert, find and erase in the name-tree hash table behave like a finite map keyed by name whatever the bucket count, collisions and resizes; every resize preserves all entries; the bucket count never falls below the configured minimum.", "quantifier": "every sequence of find/insert/erase, every hash function, every load-factor option", "why_tests_cant": "collisions, growth and shrinking depend on hash values and load at each step; tests cannot force every chain layout at every resize", "anchors": ["daemon/table/name-tree-hashtable.cpp: Hashtable"]}
{"id": "C11", "title": "Name tree is closed under prefixes and garbage free", "statement": "If the name tree contains a name it contains all its prefixes, parent links point at the immediate prefix, and erasing an empty entry removes it together with exactly those ancestors that became empty and childless.", "quantifier": "every sequence of lookup and erase operations", "why_tests_cant": "whether a node may go depends on its children and on four kinds of table entries; every order of insertions and removals over nested names must leave exactly the needed nodes", "anchors": ["daemon/table/name-tree.cpp: NameTree::lookup, eraseIfEmpty", "daemon/table/name-tree-entry.cpp"]}
{"id": "C12", "title": "Name tree longest prefix match and enumeration are exact", "statement": "findLongestPrefixMatch returns the longest stored prefix accepted by the selector; full, partial and all-match enumerations visit every selected entry exactly once and nothing else.", "quantifier": "every tree, every name, every selector", "why_tests_cant": "longest prefix match and enumeration must be exact for every set of names, predicate and hash layout, including removal while the result is in use", "anchors": ["daemon/table/name-tree.cpp: findLongestPrefixMatch, findAllMatches, fullEnumerate, partialEnumerate", "daemon/table/name-tree-iterator.cpp"]}
{"id": "C13", "title": "FIB longest prefix match", "statement": "findLongestPrefixMatch(name) returns the nexthops registered at the longest registered prefix of name, and the empty entry when there is none; insert, erase and removeNextHop affect no other prefix.", "quantifier": "every history of FIB operations, every name", "why_tests_cant": "the right prefix depends on all registered prefixes and on nodes that exist for other tables; a wrong match shows only for particular nestings", "anchors": ["daemon/table/fib.cpp: Fib::findLongestPrefixMatch, insert, erase, removeNextHop"]}
{"id": "C14", "title": "FIB nexthop lists are sorted and duplicate free", "statement": "In every FIB entry each face occurs at most once, nexthops are in nondecreasing cost order, and addOrUpdateNextHop leaves the other faces' costs unchanged.", "quantifier": "every history of nexthop additions, updates and removals", "why_tests_cant": "the list is re-sorted after each change of cost; ties and repeated updates of several faces give unboundedly many orders", "anchors": ["daemon/table/fib-entry.cpp: addOrUpdateNextHop, removeNextHop, sortNextHops"]}
{"id": "C15", "title": "FIB announces the nexthop that was added", "statement": "When a nexthop is added, the afterNewNextHop signal carries that very nexthop, and the FIB size equals the number of entries.", "quantifier": "every FIB entry and every added nexthop", "why_tests_cant": "needs every relative order of costs", "anchors": ["daemon/table/fib.cpp: Fib::addOrUpdateNextHop, Fib::erase"]}
{"id": "C16", "title": "PIT aggregates exactly equal Interests", "statement": "PIT insertion returns an existing entry iff one with equal name, CanBePrefix and MustBeFresh exists, otherwise creates one; at most one such entry exists; find agrees with insert; size equals the number of entries.", "quantifier": "every history of PIT insertions and erasures, names of any length including those beyond the name-tree depth limit and those with implicit digests", "why_tests_cant": "entries are shared by name and selectors and live on a tree that other tables also change; a wrong merge or a stale node needs a particular history across tables", "anchors": ["daemon/table/pit.cpp: Pit::findOrInsert, erase", "daemon/table/pit-entry.cpp: Entry::canMatch"]}
{"id": "C17", "title": "PIT returns exactly the entries a Data satisfies", "statement": "findAllDataMatches(data) returns each pending entry whose Interest the Data satisfies exactly once and no other.", "quantifier": "every PIT, every Data", "why_tests_cant": "all pending names and selectors must be compared with all prefixes of a Data name and its digest, for any mix of entries", "anchors": ["daemon/table/pit.cpp: Pit::findAllDataMatches"]}
{"id": "C18", "title": "PIT records are unique per face and expire on time", "statement": "An entry has at most one in-record and one out-record per face; a record's expiry is arrival time plus the Interest lifetime (capped at ten days); removing a face removes its records everywhere.", "quantifier": "every history of record updates", "why_tests_cant": "records of several faces expire at different times and are renewed in any order; removal of a face must find all of them in all entries", "anchors": ["daemon/table/pit-entry.cpp: insertOrUpdateInRecord, insertOrUpdateOutRecord, FaceRecord::update", "daemon/table/cleanup.cpp: cleanupOnFaceRemoval"]}
{"id": "C19", "title": "An out-record's Nack belongs to the last Interest sent", "statement": "An out-record carries a Nack only if the last Interest sent on that face was answered by that Nack: sending another Interest clears it, and a Nack with another nonce is ignored.", "quantifier": "every history of sends and Nacks", "why_tests_cant": "the Nack must match the last of any number of retransmissions on that face, in any order of sends and Nacks", "anchors": ["daemon/table/pit-entry.hpp: OutRecord::getIncomingNack, clearIncomingNack", "daemon/table/pit-entry.cpp: OutRecord::setIncomingNack", "daemon/fw/forwarder.cpp: onOutgoingInterest"]}
{"id": "C20", "title": "Strategy choice is inherited along the name hierarchy", "statement": "findEffectiveStrategy(name) returns the strategy set on the longest prefix of name; the root always has one; unset falls back to the parent's choice; only names under the changed prefix and not under a more specific choice change strategy.", "quantifier": "every history of set and unset commands, every name", "why_tests_cant": "inheritance depends on all prefixes set and unset before, in any order; one stale pointer shows only for names below a particular pair", "anchors": ["daemon/table/strategy-choice.cpp: insert, erase, findEffectiveStrategy, changeStrategy"]}
{"id": "C21", "title": "Changing strategy drops the old strategy's state exactly where the strategy changed", "statement": "After a strategy change, measurements and PIT entries governed by the changed choice carry no information of the old strategy and those governed by other choices keep theirs; re-selecting the same strategy type keeps them.", "quantifier": "every history of strategy changes, every set of tables", "why_tests_cant": "the change must reach exactly the names whose effective strategy changes among all tables and all nested choices", "anchors": ["daemon/table/strategy-choice.cpp: changeStrategy, clearStrategyInfo"]}
{"id": "C22", "title": "Measurements entries live exactly as long as extended", "statement": "A measurements entry survives until its lifetime passes, extending never shortens it, and it is removed when its deadline passes.", "quantifier": "every history of get/extend and clock advances", "why_tests_cant": "lifetimes are extended at any time, from several strategies, while other entries keep or release the nodes", "anchors": ["daemon/table/measurements.cpp: get, extendLifetime, cleanup"]}
{"id": "C23", "title": "Packets violating localhost scope are never accepted", "statement": "An Interest, Data or Nack whose name starts with /localhost arriving on a non-local face causes no change to any table and no packet to be sent.", "quantifier": "every forwarder state, packet and face", "why_tests_cant": "the scope rule must hold in every state, for every strategy decision, on every path by which a packet is accepted", "anchors": ["daemon/fw/forwarder.cpp: onIncomingInterest, onIncomingData", "daemon/fw/scope-prefix.cpp"]}
{"id": "C24", "title": "Scope is never violated on egress", "statement": "No strategy ever causes an Interest under /localhost to be sent to a non-local face, nor an Interest under /localhop received from a non-local face to be sent to a non-local face; no Data under /localhost is sent to a non-local face. The only exception is an Interest carrying an explicit NextHopFaceId.", "quantifier": "every history of packets, timers and table changes, every modelled strategy", "why_tests_cant": "a strategy may pick any face at any time: the egress check has to hold for every choice and table content, not for the routes in a test", "anchors": ["daemon/fw/algorithm.cpp: wouldViolateScope", "daemon/fw/forwarder.cpp: onOutgoingData", "daemon/fw/*-strategy.cpp"]}
{"id": "C25", "title": "Hop limit decreases at every hop", "statement": "An Interest arriving with hop limit 0 is dropped; any Interest forwarded because of an Interest with hop limit h carries h-1 at most, and is not sent to a non-local face when that is 0; so no Interest crosses more non-local links than its initial hop limit.", "quantifier": "every forwarder state and Interest", "why_tests_cant": "the limit must fall by one on every forwarding path, for all values including absent and zero, whichever strategy sends", "anchors": ["daemon/fw/forwarder.cpp: onIncomingInterest, onOutgoingInterest"]}
{"id": "C26", "title": "Data flows only to faces with a pending matching Interest", "statement": "Every Data packet sent on a face is preceded by an Interest received from that face which the Data satisfies and which had not yet been answered; at most one Data is sent per pending downstream, never back to the face it came from unless the link is ad hoc.", "quantifier": "every history of packets, timers and table changes, every modelled strategy", "why_tests_cant": "who may get Data depends on all Interests pending at that time and on records that expired, were satisfied or belong to faces that have gone", "anchors": ["daemon/fw/forwarder.cpp: onIncomingData, onContentStoreHit, onOutgoingData", "daemon/fw/strategy.cpp: sendData, sendDataToAll"]}
{"id": "C27", "title": "Every pending downstream gets the Data", "statement": "When solicited Data arrives, every unexpired downstream of every matching PIT entry, other than the non-ad-hoc ingress face and faces excluded by scope, is sent the Data exactly once (PIT token echoed where the strategy default is used).", "quantifier": "every forwarder state and Data", "why_tests_cant": "several pending entries with several downstreams may match one Data; each must be served once whatever the order of arrivals, timers and strategy actions", "anchors": ["daemon/fw/forwarder.cpp: onIncomingData", "daemon/fw/strategy.cpp: sendDataToAll"]}
{"id": "C28", "title": "Looping Interests are not forwarded", "statement": "An Interest whose (name, nonce) was already seen from another face while its PIT entry exists, or is recorded in the dead nonce list, is not forwarded and creates no in-record.", "quantifier": "every forwarder state and Interest", "why_tests_cant": "Whether a looped Interest is recognised depends on everything that happened to that Nonce before: which faces it came in and went out on, in which order the PIT entry was satisfied, timed out or was aggregated, and what else has filled the dead nonce list since. A test replays one topology; the claim is over all histories and all interleavings of several Interests, Data and timers.", "anchors": ["daemon/fw/forwarder.cpp: onIncomingInterest, onInterestLoop, insertDeadNonceList", "daemon/fw/algorithm.cpp: findDuplicateNonce"]}
{"id": "C29", "title": "Every PIT entry always has exactly one pending expiry timer", "statement": "At every point every PIT entry has exactly one pending expiry timer, so no entry leaks; when the timer fires the entry is removed; unless satisfied or rejected it fires no more than one millisecond before and not after the last unexpired downstream's deadline.", "quantifier": "every history of packets and timers, every strategy", "why_tests_cant": "timers are set, moved and cancelled by arrivals, strategies, Data and Nacks in any order; a lost or doubled timer shows only long after the step that caused it", "anchors": ["daemon/fw/forwarder.cpp: setExpiryTimer, onInterestFinalize, onContentStoreMiss"]}
{"id": "C30", "title": "Nacks are sent only to the downstream that sent the nacked Interest", "statement": "A Nack is sent on a face only if that face has an in-record in the entry, the link is point-to-point, and it carries that in-record's Interest; afterwards the in-record is gone.", "quantifier": "every forwarder state, every strategy", "why_tests_cant": "whether a Nack may be sent depends on all Interests seen from that downstream and on which was last", "anchors": ["daemon/fw/forwarder.cpp: onOutgoingNack, onIncomingNack"]}
{"id": "C31", "title": "Unsolicited Data is never forwarded", "statement": "Data matching no PIT entry is sent nowhere, changes no table except possibly the content store, and is cached only if the unsolicited-data policy says so for the ingress face.", "quantifier": "every forwarder state and Data", "why_tests_cant": "Data must not match any of the pending entries, which depend on the whole history; caching policy and scope vary independently", "anchors": ["daemon/fw/forwarder.cpp: onDataUnsolicited", "daemon/fw/unsolicited-data-policy.cpp"]}
{"id": "C32", "title": "A cached answer is not forwarded upstream", "statement": "When an Interest that starts a new PIT entry can be satisfied by the content store, the requester is sent exactly that Data, nothing is sent upstream and the PIT entry is scheduled for immediate removal.", "quantifier": "every forwarder state and Interest", "why_tests_cant": "the cached answer must stop forwarding in every state of the PIT entry and of the store, under every strategy", "anchors": ["daemon/fw/forwarder.cpp: onIncomingInterest, onContentStoreHit"]}
{"id": "C33", "title": "Face removal leaves no trace", "statement": "After a face is removed no FIB nexthop, PIT in-record or out-record refers to it, other faces' records are untouched, and its identifier is never assigned again.", "quantifier": "every forwarder state and face", "why_tests_cant": "a face may go at any time, with records and nexthops in any number of entries of every table and packets under way", "anchors": ["daemon/table/cleanup.cpp: cleanupOnFaceRemoval", "daemon/fw/face-table.cpp: remove"]}
{"id": "C34", "title": "Face identifiers are unique and never reused", "statement": "Each face added gets an identifier above the reserved range that no face had before; reserved identifiers are assigned only on request.", "quantifier": "every history of additions and removals", "why_tests_cant": "identifiers must stay distinct over every sequence of additions and removals, with reserved ones in between", "anchors": ["daemon/fw/face-table.cpp: add, addReserved, remove"]}
{"id": "C35", "title": "Every satisfied or unsatisfied Interest is counted once", "statement": "Each removed PIT entry increments exactly one of the satisfied / unsatisfied counters according to whether Data satisfied it.", "quantifier": "every history", "why_tests_cant": "an Interest may be answered, aggregated, retransmitted, nacked and time out in any order, and must be counted once", "anchors": ["daemon/fw/forwarder.cpp: onInterestFinalize"]}
{"id": "C36", "title": "Best-route forwards along the cheapest usable nexthop", "statement": "For a new Interest best-route sends it to the eligible nexthop of least cost and nowhere else, or answers NoRoute when none is eligible; for a non-suppressed retransmission it uses the cheapest eligible unused nexthop, else the one used longest ago.", "quantifier": "every PIT entry, FIB entry and face set", "why_tests_cant": "the choice depends on costs, scope, downstreams, earlier sends and suppression intervals; tests fix one table and one timing", "anchors": ["daemon/fw/best-route-strategy.cpp: afterReceiveInterest", "daemon/fw/algorithm.cpp: findEligibleNextHopWithEarliestOutRecord, isNextHopEligible"]}
{"id": "C37", "title": "Multicast forwards to every eligible nexthop", "statement": "Multicast sends a new Interest to all and only the eligible nexthops whose retransmission is not suppressed.", "quantifier": "every PIT entry, FIB entry and face set", "why_tests_cant": "every nexthop has its own suppression state that depends on all earlier sends; eligibility depends on the downstreams and scope", "anchors": ["daemon/fw/multicast-strategy.cpp"]}
{"id": "C38", "title": "Retransmission suppression stays within its configured interval", "statement": "The exponential suppression interval starts at the initial value, is multiplied per forwarded retransmission, never exceeds the maximum and never falls below the initial value; a retransmission is suppressed iff less than the interval has passed since the last transmission; invalid parameters are rejected.", "quantifier": "every history of retransmissions and every parameter setting", "why_tests_cant": "the interval is a chain of roundings in binary32 that depends on the configuration and on the number of retransmissions; it goes wrong only for values that no test uses", "anchors": ["daemon/fw/retx-suppression-exponential.cpp", "daemon/fw/retx-suppression-fixed.cpp"]}
{"id": "C39", "title": "Nacks are returned downstream only when every upstream has nacked", "statement": "When a Nack arrives from a point-to-point upstream for the Interest last sent there and the entry's strategy uses the standard Nack processing (best-route, random): if every out-record of the entry has now been answered by a Nack, every downstream on a point-to-point face is sent exactly one Nack; if exactly one out-record has not and its face is also a downstream, only that face is sent one; otherwise none is sent. The reason is the least severe of those the upstreams gave, where unknown reasons do not count. Out-records count whether or not they have expired.", "quantifier": "every PIT entry and history of Nacks", "why_tests_cant": "the decision depends on which of any number of upstreams have nacked, with which reasons and in which order, and on earlier Nacks on re-sent Interests", "anchors": ["daemon/fw/process-nack-traits.cpp: processNack"]}
{"id": "C40", "title": "Fragmentation followed by reassembly returns the packet", "statement": "The fragments of a packet, delivered in any order, interleaved with fragments of other packets and other endpoints, with duplicates, reassemble to exactly the original network packet, exactly once, and the link headers of the first fragment are preserved.", "quantifier": "every packet, MTU, arrival order, interleaving, 64-bit sequence number including wrap-around", "why_tests_cant": "the fragments of many packets may arrive interleaved and in any order, with sequence numbers that wrap; the number of orders is the factorial of the number of fragments", "anchors": ["daemon/face/lp-fragmenter.cpp: fragmentPacket", "daemon/face/lp-reassembler.cpp: receiveFragment, doReassembly"]}
{"id": "C41", "title": "Every fragment fits the MTU", "statement": "Every fragment produced, including its sequence number, is at most the MTU; a packet that fits is not fragmented; a packet is refused only if even one payload octet does not fit or more than the maximum number of fragments would be needed; a packet is never split into a single indexed fragment.", "quantifier": "every packet size, header size and MTU", "why_tests_cant": "unbounded arithmetic over sizes with variable-length encodings", "anchors": ["daemon/face/lp-fragmenter.cpp: fragmentPacket", "daemon/face/generic-link-service.cpp: sendNetPacket"]}
{"id": "C42", "title": "The reassembler never mixes messages and never delivers garbage", "statement": "A delivered packet is the concatenation of fragments with the same endpoint and message identifier, one per index; inconsistent fragments are dropped without affecting the partial packet; a partial packet with no new fragment for the timeout is dropped.", "quantifier": "every stream of received fragments, including hostile ones", "why_tests_cant": "the peer is not trusted: indices, counts and sequences are arbitrary, in any order, with timers firing in between", "anchors": ["daemon/face/lp-reassembler.cpp"]}
{"id": "C43", "title": "Link reliability accounts for every packet exactly once", "statement": "With reliability on, each network packet ends in exactly one of acknowledged / retransmitted / exhausted, each fragment is retransmitted at most maxRetx times, the outstanding-fragment table and the per-packet lists always refer to each other consistently, and the window start always denotes an outstanding fragment when there is one.", "quantifier": "every interleaving of sends, acknowledgements, losses and timeouts, including TxSequence wrap-around", "why_tests_cant": "the accounting must survive every interleaving of Acks, duplicate Acks, timeouts and give-ups, and TxSequence wrap-around after 2^64 packets, which no test can reach", "anchors": ["daemon/face/lp-reliability.cpp"]}
{"id": "C44", "title": "Link reliability duplicate detection", "statement": "A received fragment is reported duplicate only if the same Sequence was received before, and it is reported duplicate whenever the earlier copy is more recent than the retransmission timeout.", "quantifier": "every history of receptions and RTO values", "why_tests_cant": "which Sequences are remembered depends on all earlier reception times and on the RTO at each of them", "anchors": ["daemon/face/lp-reliability.cpp: processIncomingPacket"]}
{"id": "C45", "title": "The link service never exceeds the MTU and loses no packet it accepted", "statement": "No packet larger than the effective MTU is handed to the transport, and a fragment produced by the fragmenter is never dropped for being over the MTU.", "quantifier": "every combination of options, pending acknowledgements and queue states", "why_tests_cant": "whether a packet still fits depends on header sizes, variable-length TLV-LENGTHs, which Acks wait and whether a mark is due: a few octets out of millions of combinations", "anchors": ["daemon/face/generic-link-service.cpp: sendNetPacket, sendLpPacket, checkCongestionLevel", "daemon/face/lp-reliability.cpp: piggyback"]}
{"id": "C46", "title": "Privileged link fields are honoured only where allowed", "statement": "NextHopFaceId is passed to forwarding only on faces with local fields enabled, otherwise the packet is dropped; PrefixAnnouncement and NonDiscovery only with self-learning enabled; invalid field combinations are dropped.", "quantifier": "every received packet and option setting", "why_tests_cant": "the rules must hold for every combination of eight optional fields, packet type and options, including hostile ones", "anchors": ["daemon/face/generic-link-service.cpp: decodeInterest, decodeData, decodeNack"]}
{"id": "C47", "title": "Congestion marking follows the queue", "statement": "A packet is marked only when the send queue has been above the threshold for at least the marking interval; marking state resets when the queue drops below it; marking intervals never increase during one incident.", "quantifier": "every history of queue lengths and clock values", "why_tests_cant": "whether the next packet is marked depends on the whole history of queue lengths and clock values in the incident", "anchors": ["daemon/face/generic-link-service.cpp: checkCongestionLevel"]}
{"id": "C48", "title": "Stream transports frame packets independently of chunking", "statement": "The octets received on a connection, however cut into chunks, are delivered as exactly the complete TLV elements they consist of, in order, and what is kept is the incomplete rest. If they are packets no larger than 8800 octets the transport goes on receiving; when 8800 octets are left in which no packet is complete the transport fails.", "quantifier": "every stream, every way to cut it, every interleaving with sends, errors, close and reconnection", "why_tests_cant": "the ways to cut a stream are exponential in its length, and the buffer boundary depends on where the cut falls inside a type or length field", "anchors": ["daemon/face/stream-transport.hpp: handleReceive"]}
{"id": "C49", "title": "Stream transports send in order without loss", "statement": "On a stream transport that does not reconnect (any but a permanent TCP face) the packets accepted while it is up are written to the socket once each, whole and in order; one write is outstanding at a time, one is outstanding whenever packets wait, and the reported queue length is the sum of the sizes of the packets not yet written.", "quantifier": "every interleaving of sends and write completions", "why_tests_cant": "partial writes, write completions and their handlers, errors and new sends interleave in unboundedly many orders; a unit test fixes one", "anchors": ["daemon/face/stream-transport.hpp: doSend, sendFromQueue, handleSend"]}
{"id": "C50", "title": "Transport state machine", "statement": "A transport only makes the documented transitions, CLOSED is final, close is idempotent, closing and failed transports have their final transition pending and it always succeeds, and nothing is accepted or sent once it is closing, failed or closed.", "quantifier": "every sequence of operations", "why_tests_cant": "the state changes come from user calls, completion handlers and timers, in any order", "anchors": ["daemon/face/transport.cpp: setState, close, send"]}
{"id": "C51", "title": "RIB entries mirror the name hierarchy", "statement": "In the RIB every entry's parent is the entry with the longest registered proper prefix, children lists are the inverse relation, and an entry exists iff it has at least one route.", "quantifier": "every history of route insertions and removals", "why_tests_cant": "the parent/child links are rebuilt by every insertion and removal between existing names; a test fixes one tree shape and one order, the claim is about every order of every set of nested prefixes", "anchors": ["daemon/rib/rib.cpp: insert, erase, eraseEntry, findParent, findDescendants"]}
{"id": "C52", "title": "RIB routes are unique per face and origin and counted", "statement": "Each (prefix, face, origin) has at most one route, re-registering replaces its attributes, no other route changes, size() is the number of routes, and removing a face removes exactly the routes on it.", "quantifier": "every history", "why_tests_cant": "the face table, the size counter and the route lists are updated separately; only an invariant over all histories shows that they never drift apart", "anchors": ["daemon/rib/rib.cpp", "daemon/rib/rib-entry.cpp"]}
{"id": "C53", "title": "Route capture flag is tracked exactly", "statement": "An entry blocks inheritance iff one of its current routes has the capture flag.", "quantifier": "every history of registrations, re-registrations and removals", "why_tests_cant": "the capture flag is a running count; it goes wrong only after particular sequences of registrations, re-registrations and removals", "anchors": ["daemon/rib/rib-entry.cpp: insertRoute, eraseRoute, hasCapture", "daemon/rib/rib.cpp: insert"]}
{"id": "C54", "title": "FIB updates computed from the RIB install exactly the inherited routes", "statement": "After any history of registrations, unregistrations and face events the FIB has, for a registered prefix and a live face, the prefix's own cheapest route on that face, else the route inherited from the nearest shorter prefix with a child-inherit route on that face unless a capture lies between, and no other nexthop. An update changes just the route it names, or nothing when its face is gone.", "quantifier": "every history of RIB updates and face events", "why_tests_cant": "the updates are computed incrementally from per-entry lists of inherited routes whose correctness depends on the whole history; a test sees a few trees, and several of the shortest counterexamples need four updates in a particular order", "anchors": ["daemon/rib/fib-updater.cpp: computeUpdates, createFibUpdatesFor*, traverseSubTree, addFibUpdate", "daemon/rib/rib.cpp: getAncestorRoutes, modifyInheritedRoutes, onFibUpdateSuccess", "daemon/mgmt/fib-manager.cpp"]}
{"id": "C55", "title": "RIB updates are serialised and acknowledged exactly once", "statement": "At most one RIB update is being applied at a time, updates are applied in submission order, each is reported successful or failed exactly once, an update is reported successful only when the forwarder has answered every FIB update it calls for, and the RIB changes only on success. (The code falls short of this when two FIB updates of one RIB update are refused because the face is gone: the failure is reported twice and two updates run at once.)", "quantifier": "every sequence of submissions, face removals and responses, in any order, including timeouts and refusals", "why_tests_cant": "tests answer the FIB commands of one update in order; the claim is about every interleaving of responses, timeouts and refusals with later submissions", "anchors": ["daemon/rib/rib.cpp: beginApplyUpdate, sendBatchFromQueue, onFibUpdateSuccess, onFibUpdateFailure", "daemon/rib/fib-updater.cpp: onUpdateSuccess, onUpdateError"]}
{"id": "C56", "title": "A FIB update is retried as itself", "statement": "A FIB update that times out is sent again with the same action, at most ten times; nothing else changes; the eleventh timeout is fatal. (The code sends a removal again as an addition with cost 0.)", "quantifier": "every update and every sequence of timeouts", "why_tests_cant": "the retry path depends on how many timeouts came before and on the kind of the update; tests time out an addition once or twice", "anchors": ["daemon/rib/fib-updater.cpp: onUpdateError"]}
{"id": "C57", "title": "Readvertised routes are reference counted safely", "statement": "A prefix is advertised while at least one RIB route maps to it and withdrawn when the last disappears; a failed command is retried after a doubling delay between 100 s and one hour; the advertised prefix, cost and signer are those the policy chose; and no response of the remote end, whenever it arrives, makes the daemon touch freed state.", "quantifier": "every policy and every interleaving of route additions and removals, answers (in any order, success or failure), timer expiries and availability changes", "why_tests_cant": "the faults need an answer or a timer to fall into a particular gap of a particular history (a route re-added while the withdrawal is unanswered, a refresh expiring after the last route went), and the positive claim is an invariant over all other histories", "anchors": ["daemon/rib/readvertise/readvertise.cpp", "daemon/rib/readvertise/readvertise-destination.cpp", "daemon/rib/readvertise/host-to-gateway-readvertise-policy.cpp", "daemon/rib/readvertise/client-to-nlsr-readvertise-policy.cpp"]}
{"id": "C58", "title": "Subnet matching is exact", "statement": "An address matches a CIDR subnet iff it is of the same family and agrees on the leading prefix-length bits; malformed prefix lengths are rejected.", "quantifier": "every subnet text, every IPv4/IPv6 address (with or without scope) and every prefix length", "why_tests_cant": "2^128 addresses for each of 128 prefix lengths; a mask built one bit off at a byte boundary, or an ordering that differs from bit agreement, shows only on addresses a test does not list", "anchors": ["core/network.cpp: operator>>", "core/network.hpp: doesContain"]}
{"id": "C59", "title": "Interface and address predicates", "statement": "An interface or address is accepted iff it matches at least one whitelist rule and no blacklist rule; an empty whitelist accepts nothing.", "quantifier": "every list of rules, every interface with any set of addresses, every outcome of name matching", "why_tests_cant": "the claim quantifies over all combinations of whitelist and blacklist rules and over the order in which they are evaluated, which decides whether an exception escapes", "anchors": ["daemon/face/network-predicate.cpp"]}
{"id": "C60", "title": "ASF: ranking, probing and what it remembers of faces", "statement": "On a new Interest the ASF strategy forwards to exactly one eligible nexthop, the preferred one: working faces by smoothed RTT, then unmeasured ones, then those that timed out, ties by cost and FaceId; if probing is due for the namespace it also sends one copy with another nonce to another nexthop allowed by scope, an unmeasured one if there is one; with no eligible nexthop it answers NoRoute. While the Interest is pending it tries the preferred nexthop not waited for, else the one used longest ago, under per-upstream suppression. What ASF knows of a face is determined by the history: Data with an RTT puts it in use, a Nack or the configured number of timeouts in a row puts it out of use, and nothing else changes.", "quantifier": "every reachable state of the forwarder, every Interest, every content of the measurements, every finite history of sends, Data, Nacks, timeouts and expiries", "why_tests_cant": "the order is over all combinations of RTTs, costs and FaceIds, the standing of a face depends on the whole history of answers and timeouts, and rounding in the probing choice fails only for one random number in 2^53", "anchors": ["daemon/fw/asf-strategy.cpp: afterReceiveInterest, forwardInterest, sendProbe, getBestFaceForForwarding, onTimeoutOrNack, beforeSatisfyInterest", "daemon/fw/asf-probing-module.cpp: getFaceToProbe, chooseFace, isProbingNeeded, afterForwardingProbe", "daemon/fw/asf-measurements.cpp: getOrCreateNamespaceInfo, getNamespaceInfo, FaceInfo"]}
{"id": "C61", "title": "Interests in the producer region ignore the forwarding hint", "statement": "The forwarding hint is ignored iff one of its delegations is a prefix of a configured region name; otherwise the first delegation with a route decides the nexthops, falling back to the default route.", "quantifier": "every hint, region table and FIB", "why_tests_cant": "regions, hints and FIB entries are independent sets of names; the rule must hold for every combination and for Interests pending while tables change", "anchors": ["daemon/table/network-region-table.cpp", "daemon/fw/strategy.cpp: lookupFib"]}
{"id": "C62", "title": "Every received fragment is acknowledged exactly once", "statement": "With reliability on, every received fragment that carries a TxSequence is acknowledged exactly once, in the order of reception: the Acks attached to sent packets, followed by the queued ones, are the TxSequences received. A received fragment starts the idle timer unless it is running, and when it fires all queued Acks are sent.", "quantifier": "every interleaving of sends, receptions, timeouts and MTU changes", "why_tests_cant": "how many Acks fit on each outgoing packet depends on packet sizes, the MTU and the whole history of the Ack queue; tests fix a few of those", "anchors": ["daemon/face/lp-reliability.cpp: piggyback, processIncomingPacket, onIdleAckTimerExpiry"]}
{"id": "C63", "title": "Random strategy forwards to one eligible nexthop", "statement": "Under the random strategy each Interest that reaches it is sent to exactly one face, which is a nexthop of the FIB entry that applies and to which the Interest may go (face exists, is not the incoming one unless ad hoc, scope respected); if there is no such nexthop, a Nack with reason NoRoute is returned on a point-to-point face and the PIT entry expires at once. Nothing else is sent.", "quantifier": "every reachable forwarder state, every Interest, every FIB content and every sequence of random draws", "why_tests_cant": "The choice depends on a random generator and on the FIB, the faces and the PIT: a test observes a few draws over a few tables, not that no draw in any state picks an ineligible nexthop or sends twice.", "anchors": ["daemon/fw/random-strategy.cpp:58-86 RandomStrategy::afterReceiveInterest"]}
{"id": "C64", "title": "A datagram is one packet", "statement": "A received datagram is passed to the link service iff the whole datagram is exactly one TLV element, and then unchanged.", "quantifier": "every datagram", "why_tests_cant": "the datagrams are unboundedly many; truncated, padded and concatenated ones must all be refused", "anchors": ["daemon/face/datagram-transport.hpp: receiveDatagram"]}
{"id": "C65", "title": "Access strategy: one hop first, all when it fails", "statement": "With the access strategy, a new Interest under a name for which the last face that answered is known, and is still a usable nexthop, goes to that face only, and a timer is set to its estimated RTO; when nothing usable is known it goes to every nexthop that it may go to, once, and is rejected if there is none. When the timer is due before Data has come, it goes to all the other nexthops; this happens at most once, and not at all once Data has come. A retransmission within 100 ms of the last transmission is suppressed, a later one goes to every nexthop. Data from a face the Interest was sent to makes that face the one that answered last, for the parent of the Data's name (the name itself if the parent is under another strategy choice), for 8 seconds at least; other Data changes no measurements. The strategy respects scope, returns Data to all that asked and leaves lifetimes alone.", "quantifier": "every reachable state of the forwarder, every Interest, Data packet, timer and PIT entry, every set of nexthops, every measurements table and every RTT estimator", "why_tests_cant": "which face is used depends on the history of Data, on longest-prefix matching of measurements across strategy choices and on the order of timers and Data; tests replay single topologies with one fixed estimator", "anchors": ["daemon/fw/access-strategy.cpp: AccessStrategy::afterReceiveInterest, afterReceiveNewInterest, afterReceiveRetxInterest, sendToLastNexthop, afterRtoTimeout, multicast, beforeSatisfyInterest, updateMeasurements, findPrefixMeasurements, addPrefixMeasurements", "daemon/table/measurements-accessor.cpp: MeasurementsAccessor::filter"]}
{"id": "C66", "title": "Self-learning strategy: discovery, announcements, renewal", "statement": "Under the self-learning strategy a discovery Interest without a route goes to every non-local face that scope and link type allow, and to nobody else; with a route it goes, marked non-discovery, to every nexthop it may go to. A non-discovery Interest goes to every nexthop it may go to, or, without a route, is answered with a Nack NoRoute over a point-to-point link and its PIT entry expires at once. Data from a face to which a discovery Interest was sent goes to everybody waiting, and the announcement it carries is handed to the RIB with a lifetime of ten minutes. Data that answers a non-discovery Interest goes to everybody waiting, unless somebody waiting sent a discovery Interest and not all are local: then an announcement is asked for exactly once, nobody gets the Data until it is found, the entry stays for one second, and when the announcement is found everybody then waiting gets the Data with it, once. A Nack NoRoute is passed to every downstream and the route is renewed; other Nacks change nothing. Records of other faces are left alone.", "quantifier": "all reachable forwarder states, faces, FIBs, Interests, Data, Nacks and announcements, all orders of events between the request for an announcement and its arrival, all strategies elsewhere", "why_tests_cant": "The strategy's behaviour depends on marks left on in- and out-records by earlier packets and on a request that is answered after any number of other events, among them expiry of the entry and removal of the face; the number of such histories is unbounded.", "anchors": ["daemon/fw/self-learning-strategy.cpp: afterReceiveInterest, afterReceiveData, afterReceiveNack, broadcastInterest, multicastInterest, asyncProcessData, needPrefixAnn, addRoute, renewRoute", "daemon/fw/self-learning-strategy.hpp: InRecordInfo, OutRecordInfo"]}
{"id": "C67", "title": "Strategy names: registry, versions, parameters, instance names", "statement": "Registering strategies keeps each name once. A name with a version selects, among the registered strategies with the same base name, the one with the least version not below it; a name without a version selects the one that comes last under that name. With the strategies NFD has, in whatever order they are registered: exactly the names /localhost/nfd/strategy/X, alone or with X's version and any parameters X accepts, create strategy X; an older version or parameters it does not accept are refused; everything else is unknown. Of several settings of a parameter the last counts, an unset one has its default, numbers are decimal and must fit, and inconsistent values are refused. The instance name given to the strategy creates the same strategy with the same parameters again, and two instances count as the same type exactly if they are the same strategy.", "quantifier": "all names, all registries and orders of registration, all parameter lists and values", "why_tests_cant": "Names and parameter texts are unbounded, and the answer depends on canonical name order between the request and whatever else is registered; tests name a handful of strategies and parameters.", "anchors": ["daemon/fw/strategy.cpp: find, canCreate, create, areSameType, listRegistered, parseInstanceName, makeInstanceName, parseParameters", "daemon/fw/strategy.hpp: registerType, StrategyParameters::getOrDefault", "daemon/fw/retx-suppression-exponential.cpp: construct", "daemon/fw/{access,asf,best-route,multicast,random,self-learning}-strategy.cpp: constructors, getStrategyName", "daemon/fw/asf-probing-module.cpp: setProbingInterval"]}
{"id": "C68", "title": "Routes expire when due, and not before", "statement": "The RIB holds exactly the routes of the updates reported as done, made one after the other. Each route registered with a time of expiry has a removal scheduled for exactly that time; a scheduled removal happens once, not before its time, and removes the route of the registration it was scheduled for. Once every submitted update has been reported (in order, no removal having failed) and no scheduled call is due, no route is in the RIB whose time is over. Neither the passing of time nor responses of the FIB submit updates. Refuted beyond that: a route renewed while the FIB is busy can be removed before its time; a failed removal leaves a route without any scheduled removal; a period of more than 2^63 ns overflows.", "quantifier": "every sequence of register, unregister and announce commands, self-learning calls, face removals, clock advances, scheduler calls and responses of the FIB, in any order", "why_tests_cant": "whether an expired route is gone depends on how registrations, renewals, cancellations of timers and delayed FIB responses interleave; a test follows one schedule", "anchors": ["daemon/mgmt/rib-manager.cpp: RibManager::addRoute, beginRemoveRoute", "daemon/rib/rib.cpp: Rib::insert, erase, onRouteExpiration, beginApplyUpdate, sendBatchFromQueue, onFibUpdateSuccess, onFibUpdateFailure"]}
{"id": "C69", "title": "RIB commands and self-learning calls do what they answer", "statement": "A registration (or announcement) of a name with more than 32 components is answered 414 and changes nothing; an announcement that does not validate is answered 403 and changes nothing; any other is answered 200 with the parameters in effect and submits exactly one update, a registration until the requested time, or a removal if that time is not in the future. An unregistration submits exactly one removal. The route of a prefix announcement never outlives the announcement, however often it is renewed, and renewal applies to a route of an announcement at the name or its next registered prefix. When a face goes away or is missing from the list of active faces, all its routes and no others are removed. The announcement found for a name is the longest-lasting of the closest registered prefix, or one made for that prefix lasting between 15 seconds and an hour. The listing has each registered prefix once, in order, with one row per route. Refuted beyond that: renewal does not find a learned route above the closest entry; the listing can show a negative remaining time.", "quantifier": "every reachable state of the RIB manager and every command, self-learning call or face event", "why_tests_cant": "the answer must agree with the update submitted for all parameters, clocks and validity periods and in every state of the queue", "anchors": ["daemon/mgmt/rib-manager.cpp: RibManager::registerEntry, unregisterEntry, announceEntry, listEntries, slAnnounce, slRenew, slFindAnn, removeInvalidFaces", "daemon/rib/route.cpp: computeExpiration", "daemon/rib/rib-entry.cpp: RibEntry::getPrefixAnnouncement", "daemon/rib/rib.cpp: Rib::findLongestPrefix, beginRemoveFace, beginRemoveFailedFaces"]}
{"id": "C70", "title": "Only signers the configuration lists for a module may command it", "statement": "A management command is accepted only if the configuration in force lists, for the module the command is for, either 'any' or a certificate whose key signed the command; the certificates accepted for a module are exactly those the last configuration lists for it, over all of its authorize sections. A dry run changes nothing and succeeds exactly for the configurations that a real run accepts: at least one section, each named authorize, with a loadable certificate and privileges that name known modules. A malformed or unsigned command gets no answer, any other refused command gets 403, and a module registered after the configuration was read refuses everything. A failed configuration never grants more than it lists. Refuted beyond that: a failed configuration is not rolled back, the privileges granted before are lost and part of the new ones are in force.", "quantifier": "every history of module registrations, dry runs and configuration loads, every configuration tree and every command", "why_tests_cant": "who may command the forwarder depends on the whole history of reloads and on every combination of sections, 'any' and certificates; tests try a few files", "anchors": ["daemon/mgmt/command-authenticator.cpp: CommandAuthenticator::processConfig, CommandAuthenticator::makeAuthorization, CommandAuthenticatorValidationPolicy"]}
{"id": "C71", "title": "Configuration sections are processed in order, and a dry run changes nothing", "statement": "Processing a configuration succeeds exactly if every section, in file order, either has a handler that succeeds in the state its predecessors left, or has none and may be ignored; after an error no further section is processed. If no handler changes anything in a dry run then a dry run of the whole file changes nothing, and starting up with a file whose dry run fails changes nothing. 'yes' and 'no' are the only texts of a yes/no option; a number option is accepted exactly if its text, apart from white space and one plus sign, is a decimal number below 2^64, and has that value. Refuted beyond that: a handler that fails with an out-of-range exception is taken for a missing handler, so an ignored section name hides its failure.", "quantifier": "every configuration tree, every set of handlers and every text", "why_tests_cant": "any order and nesting of sections and any text can appear in a configuration file", "anchors": ["daemon/common/config-file.cpp: ConfigFile::process, parseYesNo", "daemon/common/config-file.hpp: ConfigFile::parseNumber", "daemon/nfd.cpp: Nfd::initializeManagement", "daemon/main.cpp: NfdRunner"]}
{"id": "C72", "title": "The tables section sets what it says and defaults for what it does not say", "statement": "A real run of the tables section that succeeds leaves the Content Store with the capacity given (65536 if absent), applies the replacement policy if one is given and the store is empty then, sets the policy for unsolicited Data (drop-all if absent), gives each listed prefix the listed strategy, and makes the network region table exactly the listed names if it has such a part; it changes nothing else. A dry run changes nothing and accepts exactly the well-formed sections: a valid number, known policies, a strategy that can be created for each prefix, no prefix listed twice. A real run that fails leaves the store and its policies as they were. If no section was applied at start, the default capacity and policy are set, otherwise nothing happens.", "quantifier": "every tables section (any number of strategy and region lines in any order), every reachable state of the forwarder's tables and both run modes", "why_tests_cant": "The section is an arbitrary tree: which lines are present, their order and the duplicates among them vary freely, and the effect depends on the tables as they are when it is applied. Tests fix a handful of files; the claim is about every file, including that nothing besides the named tables is touched and what a failed run leaves behind.", "anchors": ["daemon/mgmt/tables-config-section.cpp: TablesConfigSection::processConfig", "daemon/mgmt/tables-config-section.cpp: TablesConfigSection::processStrategyChoiceSection", "daemon/mgmt/tables-config-section.cpp: TablesConfigSection::processNetworkRegionSection", "daemon/mgmt/tables-config-section.cpp: TablesConfigSection::ensureConfigured"]}
{"id": "C73", "title": "Management commands on the FIB and on strategy choices do what their answer says, and status and datasets are truthful", "statement": "A command to add a nexthop is answered 414 for a name of more than 32 components, 410 for a face that does not exist, and then changes nothing; otherwise it is answered 200 with the parameters in force (the face the command came from if face 0 is given), that face is a nexthop of the name with that cost, and no other nexthop changes. A command to remove a nexthop is answered 200, that face is no nexthop of the name afterwards, and nothing else changes. A command to set a strategy is answered 200, 404, 409 or 414 according to its reason, names the instance chosen, and changes the choice of that prefix only, and nothing if refused. Commands change no face, no stored Data and no other configuration. The FIB and strategy datasets have one row per entry and say exactly what is in force. The general status shows the numbers of entries of each table, and the numbers of Interests, Data and Nacks received and sent since the start (modulo 2^64).", "quantifier": "every command with any parameters, in every reachable state of the forwarder, for every strategy program", "why_tests_cant": "The effect must be the same in every state a running forwarder can be in, with any tables and pending Interests that strategies react to while the command runs, and the frame conditions range over all other names and faces. The counters must agree with the whole history of packets, over every path by which a packet is sent or dropped.", "anchors": ["daemon/mgmt/fib-manager.cpp: FibManager::addNextHop", "daemon/mgmt/fib-manager.cpp: FibManager::removeNextHop", "daemon/mgmt/fib-manager.cpp: FibManager::listEntries", "daemon/mgmt/fib-manager.cpp: FibManager::setFaceForSelfRegistration", "daemon/mgmt/strategy-choice-manager.cpp: StrategyChoiceManager::setStrategy", "daemon/mgmt/strategy-choice-manager.cpp: StrategyChoiceManager::unsetStrategy", "daemon/mgmt/strategy-choice-manager.cpp: StrategyChoiceManager::listChoices", "daemon/mgmt/forwarder-status-manager.cpp: ForwarderStatusManager::collectGeneralStatus", "daemon/fw/forwarder.cpp: Forwarder::getCounters"]}
{"id": "C74", "title": "Face management commands, dataset and notifications agree with the faces", "statement": "A create command is answered 400 exactly if a URI in it is malformed or not canonical, 406 exactly if no protocol has its scheme, 409 with a description of the existing face and no change if the face exists, and 200 with a description of the new face otherwise. An update is always answered: 404 if there is no such face, 409 with exactly the offending properties and no change, or 200, and then exactly the requested properties of that face changed. A destroy command is always answered 200 and the face never goes up again. A query returns one row for each face that satisfies the filter and no others. At every time the faces that exist are those that the notifications say exist, notifications of a face come only between its creation and its destruction, no identifier above 255 is used twice, no command enables local fields on a face that is not local, and a face has an expiration time exactly if it is an on-demand datagram face with an idle timeout.", "quantifier": "all commands and filters, all face tables, and all finite histories of faces made by factories or channels, commands and changes of transport state in any order", "why_tests_cant": "tests create and update a few faces; the claim that notifications reconstruct the table, that identifiers are never reused and that refused updates change nothing is about every interleaving of commands with transports going up, down and away, and every combination of parameters and properties", "anchors": ["daemon/mgmt/face-manager.cpp: FaceManager::createFace, afterCreateFaceSuccess, updateFace, destroyFace, listFaces, queryFaces, matchFilter, notifyFaceEvent, connectFaceStateChangeSignal", "daemon/fw/face-table.cpp: FaceTable::add, addReserved, remove", "daemon/face/transport.cpp: Transport::setState, setPersistency, close", "daemon/face/generic-link-service.cpp: getEffectiveMtu, canOverrideMtuTo"]}
{"id": "C75", "title": "TCP and UDP channels create, share and report unicast faces correctly", "statement": "A faces/create command for a TCP or UDP URI is refused with 406 exactly for the listed unsupported parameters, with 504 if there is no channel of the address family or the connection fails or times out, is answered 409 with the existing face if the channel already has a face for the remote endpoint, and otherwise is answered 200 with a new face that has the requested options. Incoming connections and first datagrams of new peers make on-demand faces. At all times every face belongs to exactly one channel and remote endpoint, a channel has at most one face per endpoint, local fields are on only on local faces, every command is answered, and no assertion fails, given sane addresses. It is not true that every command is answered at most once, that a channel keeps listening after a failure, or that a destroyed face is no longer reported.", "quantifier": "all sequences of create, update and destroy commands, operating system outcomes of connect, accept, receive and socket creation, connect timeouts, incoming connections and peers, and transport state changes, in any order, for all channel lists and URI parsers", "why_tests_cant": "The tests run single connections with the loopback interface; whether two concurrent attempts, a timeout racing with a completed connect, a failing accept, or a closing face break the one-face-per-endpoint rule depends on the interleaving of asynchronous handlers, of which tests exercise a handful.", "anchors": ["daemon/face/tcp-factory.cpp TcpFactory::doCreateFace", "daemon/face/tcp-channel.cpp TcpChannel::connect, createFace, accept, handleConnect, handleConnectTimeout", "daemon/face/udp-factory.cpp UdpFactory::doCreateFace", "daemon/face/udp-channel.cpp UdpChannel::handleNewPeer, createFace", "daemon/mgmt/face-manager.cpp FaceManager::createFace, afterCreateFaceSuccess"]}
{"id": "C76", "title": "The face_system section: valid options, wanted channels and multicast faces, schemes", "statement": "A dry run of the face_system section succeeds exactly if every subsection is known, there once, and has only known options with valid values. A real run succeeds exactly if, besides, the system lets every wanted channel be opened and there is no rule for netdev-bound faces; afterwards the wanted TCP, UDP, Ethernet, Unix and WebSocket channels are there with the configured settings and listen if wanted, each eligible network interface has the multicast faces that are wanted, all other multicast faces are closing, and the table of URI schemes gives each scheme to the factory that provides it. Interfaces and addresses that appear later get faces the same way without touching others. Processing an unchanged file again with the same interfaces succeeds and changes nothing. A Unix socket file is removed only if nobody answers on it. It is not true that a reload can change a multicast group in place, that every later address gets a face, that a dry run has no effect, that a file which passes the dry run can be carried out, that a failed run has no effect, or that a listening Ethernet channel receives.", "quantifier": "all configuration trees, all sets of network interfaces and addresses, all outcomes of the operating system's socket, file and capture calls, all histories of configuration runs, interface and address events and face closings", "why_tests_cant": "Tests apply a handful of hand-written sections on the interfaces of the test machine, mostly once; which channels and faces exist after arbitrary files, interface sets, failures and sequences of reloads and network events is a statement over all of them.", "anchors": ["daemon/face/face-system.cpp FaceSystem::processConfig", "daemon/face/udp-factory.cpp UdpFactory::doProcessConfig, applyMcastConfig, applyMcastConfigToNetif, createMulticastFace, createChannel", "daemon/face/tcp-factory.cpp TcpFactory::doProcessConfig", "daemon/face/ethernet-factory.cpp EthernetFactory::doProcessConfig, applyConfig, applyUnicastConfigToNetif, applyMcastConfigToNetif", "daemon/face/ethernet-channel.cpp EthernetChannel::listen", "daemon/face/unix-stream-factory.cpp UnixStreamFactory::doProcessConfig", "daemon/face/unix-stream-channel.cpp UnixStreamChannel::listen", "daemon/face/websocket-factory.cpp WebSocketFactory::doProcessConfig", "daemon/face/netdev-bound.cpp NetdevBound::processConfig"]}
{"id": "C77", "title": "Ethernet faces carry packets unchanged, each frame has one taker, and idle faces are closed", "statement": "A packet of at most 8800 octets that is sent on an Ethernet face arrives unchanged, padded or not, at the unicast face of the addressee or at every other member of the group. A frame of NDN type for the interface passes the packet filter of exactly one of the channel and its unicast faces; other frames pass none; frames that are too short, of another type, or without a packet are ignored and do not extend the life of a face. A face follows its interface between UP and DOWN, changes states as documented, is CLOSED only after its last handler, always waits for the next frame, fails on an error unless permanent, and, if on-demand, is closed by its timer only after an idle timeout without packets.", "quantifier": "all addresses, packets, frames and interleavings of sending, receiving, errors, interface changes, persistency changes, timers and closing", "why_tests_cant": "Frames and addresses are unbounded in number, and what goes wrong depends on the order in which waits complete, timers fire and the face is closed; unit tests replay a handful of frames through a loopback interface and need privileges to do that.", "anchors": ["daemon/face/ethernet-protocol.cpp checkFrameHeader", "daemon/face/ethernet-transport.cpp EthernetTransport", "daemon/face/unicast-ethernet-transport.cpp UnicastEthernetTransport", "daemon/face/multicast-ethernet-transport.cpp MulticastEthernetTransport", "daemon/face/ethernet-channel.cpp EthernetChannel::updateFilter", "daemon/face/pcap-helper.cpp PcapHelper"]}
{"id": "C78", "title": "An Ethernet channel has one face per peer and passes every packet on exactly once", "statement": "Whatever happens, an Ethernet channel never has two faces for one peer, and its table and the faces that are not closed correspond to each other. A request for a peer that has a face is answered with that face and changes nothing; one for another peer makes exactly one face, or reports the failure and changes nothing. A frame from an unknown peer makes one on-demand face, which is announced before it gets the packet. The filter of a listening channel excludes exactly the peers that have a face. Hence every packet that arrives is passed on exactly once by the face of its sender, or still waits.", "quantifier": "all addresses, frames and interleavings of listening, requests, arriving frames, reads of the channel and its faces, failures of the system and closing", "why_tests_cant": "A frame can be queued at the channel and its successor at the face, so what is delivered depends on the order of arrivals, filter changes and reads; tests send one or two frames in a fixed order and need privileges to open the interface.", "anchors": ["daemon/face/ethernet-channel.cpp EthernetChannel::connect", "daemon/face/ethernet-channel.cpp EthernetChannel::listen", "daemon/face/ethernet-channel.cpp EthernetChannel::handleRead", "daemon/face/ethernet-channel.cpp EthernetChannel::processIncomingPacket", "daemon/face/ethernet-channel.cpp EthernetChannel::createFace", "daemon/face/ethernet-channel.cpp EthernetChannel::updateFilter", "daemon/face/ethernet-transport.cpp EthernetTransport::receivePayload"]}
{"id": "C79", "title": "WebSocket faces carry packets, notice dead peers and are closed once", "statement": "Every WebSocket connection gets exactly one face, which is local exactly if both ends are loopback addresses. The face is UP until it is closed by either side, a send or ping fails, or a pong is missing; then it goes through CLOSING or FAILED to CLOSED at once, its pings stop, and nothing is sent, received or counted any more. A message that begins with a packet passes exactly that packet on; other messages are ignored; events on one connection do not affect others. With the pong timeout below the ping interval, a face whose peer is silent is closed within the two times together, and one whose peer answers in time is never closed for a missing pong.", "quantifier": "all addresses, messages, timer settings and interleavings of messages, pings, pongs, timeouts, failures and closing on any number of connections", "why_tests_cant": "The detection of dead peers is a statement about all points in time and all orders of pings, pongs and timeouts, and the number of connections is unbounded; tests run one connection with one choice of timers.", "anchors": ["daemon/face/websocket-transport.cpp WebSocketTransport", "daemon/face/websocket-transport.cpp isLoopback", "daemon/face/websocket-channel.cpp WebSocketChannel", "daemon/face/channel.cpp connectFaceClosedSignal", "daemon/face/transport.cpp Transport::setState"]}
{"id": "C80", "title": "nfdc runs the commands its command line or batch file says", "statement": "A command line of nfdc is accepted exactly if, after the two words that choose the command, its words can be read as assignments to the declared arguments (by name, in any order, or by position before any name), each text standing for a value of the argument's type and every required argument given; the reading is unique, and the command runs with exactly those values. The non-empty fields of each batch line, which are neither blank nor comment, are such a command line; every word can be written by quoting. A batch runs nothing unless every line can be read, then runs the commands in order until one fails, and the exit code tells whether all succeeded.", "quantifier": "all declarations of commands, words, batch files, outcomes of commands", "why_tests_cant": "Words, files and declarations are unbounded and the greedy reading of optional positional arguments, quoting and line continuation interact; tests try a few command lines.", "anchors": ["tools/nfdc/command-definition.cpp CommandDefinition::parse", "tools/nfdc/command-definition.cpp CommandDefinition::addArg", "tools/nfdc/command-definition.cpp parseValue", "tools/nfdc/command-parser.cpp CommandParser", "tools/nfdc/main.cpp main", "tools/nfdc/help.cpp help", "docs/manpages/nfdc.rst"]}
{"id": "C81", "title": "Hub discovery tries its stages in order and ends with one result", "statement": "A run of ndn-autoconfig tries multicast discovery (on all multicast faces that can be used), then the DNS and identity based ways, and stops at the first hub found; it then creates one face to the hub and registers the two prefixes on it, the second after the first. It ends with exactly one result, success exactly if all of that succeeded, when nothing is pending any more, whatever is answered and in whichever order; the exit code tells the result. In daemon mode a run is repeated an hour after it ends and five seconds after the network changes.", "quantifier": "all answers of the forwarder, of DNS and of hubs, in all orders; all times of network changes", "why_tests_cant": "The answers of several multicast faces arrive in any order and any of them may fail; network changes may arrive at any moment of a run.", "anchors": ["tools/ndn-autoconfig/procedure.cpp Procedure", "tools/ndn-autoconfig/stage.cpp Stage", "tools/ndn-autoconfig/multicast-discovery.cpp MulticastDiscovery", "tools/ndn-autoconfig/main.cpp runDaemon"]}
{"id": "C82", "title": "Automatic registration gives each new peer exactly its prefixes", "statement": "nfd-autoreg registers a prefix on a face, with the given cost, exactly if the face is reported (it existed at start-up, or was created later and is not local), is a unicast UDP or TCP face, and the prefix is one for all faces or the face is on-demand with an address that is not blacklisted and, if there is a whitelist, is whitelisted. Nothing is registered twice. The program runs exactly if some prefix is given.", "quantifier": "all options, all addresses, all histories of reported faces", "why_tests_cant": "The lists, addresses and histories are unbounded; an address that slips through a default whitelist or a filter is found only by considering all of them.", "anchors": ["tools/nfd-autoreg.cpp AutoregServer", "core/network.cpp Network::doesContain", "docs/manpages/nfd-autoreg.rst"]}
{"id": "C83", "title": "Only one forwarder serves the Unix socket, and other files are left alone", "statement": "Starting on the path of the Unix socket succeeds if the path is free or has a socket that nobody listens on, which is replaced, and otherwise fails and changes nothing; a file that is no socket is never removed, however several instances interleave. If instances are started one after the other, at most one serves at any time, clients that connect reach it, and after it ends (which frees the path) or crashes the next start succeeds. Every connection gets one face, until accepting fails, and the size of the channel is the number of its open faces.", "quantifier": "all contents of the path, all histories of starts, ends and crashes of any number of instances, all interleavings of their system calls where stated, all histories of connections", "why_tests_cant": "Several processes share the path and any of them may crash at any point; tests run one process.", "anchors": ["daemon/face/unix-stream-channel.cpp UnixStreamChannel::listen", "daemon/face/unix-stream-channel.cpp UnixStreamChannel::~UnixStreamChannel", "daemon/face/unix-stream-channel.cpp UnixStreamChannel::accept"]}
{"id": "C84", "title": "The forwarder and RIB threads start and end together", "statement": "Whatever the schedule of the two threads, when either fails or a termination signal arrives, both end and the daemon exits; the exit code is zero exactly if no thread failed and otherwise that of a failure; neither thread touches the event loop of the other after it is gone; there is no deadlock.", "quantifier": "all interleavings of the two threads, all points at which either fails or a signal arrives", "why_tests_cant": "The order in which two threads reach their synchronization points is up to the scheduler; a test runs one order and the bad one is rare.", "anchors": ["daemon/main.cpp NfdRunner::run", "daemon/main.cpp NfdRunner::terminate"]}
{"id": "C85", "title": "The daemon runs as the configured user except in elevated functions", "statement": "Started by the superuser, the daemon becomes the configured user and group when its privileges are dropped, whichever section and history of configurations; a function that is run elevated has the ids of the superuser, and after it, also if it throws, the process is the configured user again; changing ids never fails then. A general section is accepted exactly if the users and groups it names last exist and none is empty. Started by another user, dropping succeeds exactly if nothing is to change.", "quantifier": "all user and group databases, configurations, ids, histories of elevated functions and configurations", "why_tests_cant": "Unit tests do not run as the superuser, and the order of the id changes matters only for some combinations of real, effective and saved ids.", "anchors": ["daemon/common/privilege-helper.cpp PrivilegeHelper", "daemon/common/privilege-helper.hpp PrivilegeHelper::runElevated", "daemon/mgmt/general-config-section.cpp onConfig", "daemon/nfd.cpp Nfd::initialize"]}
{"id": "C86", "title": "The log section gives every module its level", "statement": "A log section is applied exactly if all the levels it names are valid; then every module has the level of the last entry that names it (a name without a dot is a module of NFD, a star at the end stands for anything), otherwise modules of NFD have the default level (INFO if none is given) and other modules keep theirs. If a level is invalid nothing changes.", "quantifier": "all sections, modules and earlier levels", "why_tests_cant": "Entries interact with each other, with patterns and with levels set before; the combinations are unbounded.", "anchors": ["daemon/mgmt/log-config-section.cpp onConfig", "daemon/nfd.cpp Nfd::configureLogging"]}
{"id": "C87", "title": "The hub found by DNS is the one of the service record", "statement": "Hub discovery over DNS gives the target and port of the first service record of the answer, and an error (never undefined behaviour) if the query fails, there are no records, or names cannot be read. The name asked for identifies the identity of the user.", "quantifier": "all answers, all earlier contents of the buffer and all sizes", "why_tests_cant": "Answers come from the network and can have any contents and size; the fields are read at computed offsets of a fixed buffer.", "anchors": ["tools/ndn-autoconfig/dns-srv.cpp parseSrvRr", "tools/ndn-autoconfig/dns-srv.cpp querySrvRr", "tools/ndn-autoconfig/guess-from-identity-name.cpp GuessFromIdentityName::doStart"]}
