# Formal model of NFD in Rocq (Coq 8.16.1)

## Layout

The model is a set of total, computable Gallina functions, one per C++ function that matters, grouped per component. A component `X` has

* `X_Model.v`: the model. Every definition has a comment that cites the file and lines of `/repo` it models, and says where it simplifies.
* `X_Spec.v`: where it pays, the small vocabulary the theorems are stated in, independent of the model's own helpers. In smaller components it stands at the head of the `X_Props.v` file.
* `X_Proof.v`: lemmas and invariants.
* `X_Props.v`: the property theorems, named `Cnn_...`, with an `Example` beside them that meets the hypotheses in a non-trivial case, and `Print Assumptions` at the end.

`Lib.v` has generic lemmas only. `properties.jsonl` has the English properties, `MANIFEST.json` the theorems of each one (made by `mkmanifest.py` from `manifest_src.json` and the `X_Props.v` files), `seeded/LOG.jsonl` the wrong programs that were tried on the theorems.

Conventions:

* `None` is a failed `BOOST_ASSERT`, an exception that nobody catches, or undefined behaviour. "Defined" theorems say when it cannot occur.
* A machine integer wraps explicitly, or the comment says why it cannot be near its bound. Times are integers of nanoseconds.
* Callbacks, timers and packets in flight are data in the state; the environment (clients, peers, operating system, clock, random numbers) is a list of events. A history is a run over an arbitrary list of events; "reachable" means reached from the start by some list.
* What NFD takes from elsewhere (hash functions, `make_address`, RTT estimators, signature checking) is a section variable, so that the theorems hold for all of them once the section is closed.
* A name `..._refuted` is the negation of a stronger claim that one might expect, with a counterexample that is computed by the model; the strongest true variant is proved beside it. A name `..._partial` is the proved part of a claim whose full form is written in the comment or refuted beside it.

## Plan per property

| property | what is modelled | how it is proved |
|---|---|---|
| C01-C07 | `Cs_Model`: `Cs`, `cs-entry`, `cs-policy`, LRU and priority_fifo. The set of entries is a list kept sorted by the canonical order, an iterator is its key, freshness timers are entries of the state that operations fire, the clock is an operation. | Invariant by induction over operation lists (`Cs_Proof`), refinement to an abstract finite set of packets with last-use times (`Cs_Spec`). |
| C08, C09 | `Dnl_Model`: the dead nonce list; the hash is a section variable; which of several equal elements `find` returns is an argument of the operation; 0.9 and 1.2 are IEEE-754 doubles with their rounding. | Invariant over operation lists; arithmetic of the rounded factors. |
| C10-C12 | `Nt_Model`: hash table buckets and chains, attach, detach, resize, parent and child links, iterators; the hash and the options are section variables. `Tree_Model`: the tree as the tables see it. | Refinement of the hash table to a prefix-closed finite map for every hash function (`Tree_Refine`), then functional specification of longest prefix match and enumeration. |
| C13-C15 | `Tab_Model`: `Fib`, `fib::Entry`, on the tree; all four tables share one tree, so that garbage collection of entries is visible. | Invariant over histories of all tables; refinement to a map from prefix to nexthops; frame conditions. |
| C16-C19 | `Tab_Model`: `Pit`, `pit::Entry`, in- and out-records, expiry. | As above; the satisfaction relation is the declarative one of `Packet_Spec`. |
| C20, C21 | `Tab_Model`: `StrategyChoice`, including the walk that clears strategy information. | Refinement to a map from prefix to strategy; exact effect on measurements and PIT entries. |
| C22 | `Tab_Model`: `Measurements`, `MeasurementsAccessor`, clock. | Invariant over histories. |
| C23-C35, C61 | `Fw_Model`: the `Forwarder` pipelines, scope control, hop limit, unsolicited data policy, face table, network region table, `Strategy::lookupFib`. A strategy is a program (`sprog`) over the protected interface of class `Strategy`; pipelines are run on it. Timers are in the state and fire as events. | Invariant over event traces, for every family of strategies, with a contract only where the property needs one; the contracts are proved of the strategies of NFD (C67 gives the versions without contract: `C23_nfd`, `C24_nfd`, `C26_nfd`). |
| C36, C37, C39, C63 | `St_Model`: best-route, multicast, random strategies, `algorithm.cpp`, `process-nack-traits`. | Event level functional specification: from the arrival of a packet at the forwarder to everything that is sent. |
| C38 | `St_Model`: exponential and fixed retransmission suppression; floats as binary32 (Flocq is not used: rounding to nearest even is defined here). | Arithmetic over all configurations and interval sequences. |
| C40-C42 | `Lp_Model`: NDNLPv2 encoding sizes, fragmenter, reassembler with its timers; octets are numbers. | Round trip for all packets, MTUs and interleavings; invariant of the reassembler over arbitrary arrivals. |
| C43, C44, C62 | `Rel_Model`: `LpReliability`: unacked fragments, Ack queue, retransmission, loss detection, idle timer; the RTT estimator is a parameter. | Invariant over event lists. |
| C45-C47 | `Ls_Model`: `GenericLinkService`: encoding, fields, Acks, congestion marking, reception. | Functional specification; bounds over histories. |
| C48-C50, C64 | `Tp_Model`: `Transport` state machine, `StreamTransport` receive buffer and send queue, TCP reconnection, datagrams. Boost.Asio is the environment: started operations wait in the state and are completed by events. | Induction over chunkings of the octet stream; invariant over events. |
| C51-C53 | `Rib_Model`: `Rib`, `RibEntry`, inherited routes, capture counts. | Invariant over histories; functional specification. |
| C54 | `RibFib_Model`: `FibUpdater` and the FIB that the commands are carried out on. | Simulation between the RIB and the FIB for all histories that meet `safe_run`; nine counterexamples outside. |
| C55, C56 | `RibQueue_Model`: the queue of updates, batches, commands in flight, retries, failures. | Invariant over all schedules of answers and timeouts. |
| C57 | `Readv_Model`: `Readvertise`, its destinations, timers, and answers. | Invariant over schedules; counterexamples. |
| C58, C59 | `Net_Model`: `Network`, predicates on interfaces and addresses; `make_address`, `fnmatch` and the Ethernet parser are parameters. | Arithmetic on prefixes. |
| C60 | `Asf_Model`: ASF measurements, ranking, probing, strategy; the RTT estimator and random numbers are parameters. | Functional specification of each trigger; measurements as a function of the history. |
| C65 | `Acc_Model`: the access strategy. | Functional specification of each trigger; refutation. |
| C66 | `Sl_Model`: the self-learning strategy; the answer of the RIB thread is an event. | Event level specification of discovery, announcement, renewal; refutations. |
| C67 | `Reg_Model`: the registry of strategies, versions, instance names, parameters of the constructors. | Functional specification for all names; discharge of contracts. |
| C68, C69 | `Rm_Model`: `RibManager` on the queue of `RibQueue_Model`: register, unregister, announce, withdraw, renew, expiry timers, datasets. | Invariant over all schedules; functional specification of each command. |
| C70 | `Auth_Model`: `CommandAuthenticator`; certificates and signatures are parameters. | Characterisation of acceptance for all histories of configurations. |
| C71 | `Cfg_Model`: `ConfigFile`, parsing of yes/no and numbers, on the tree that the INFO parser gives. | Functional specification; simulation of a dry run. |
| C72 | `Tc_Model`: the `tables` section. | Functional specification for all sections and reachable states. |
| C73 | `Mg_Model`: FIB and strategy choice managers, forwarder status. | Functional specification on reachable states of `Fw_Model`. |
| C74 | `Fm_Model`: `FaceManager`: create, update, destroy, list, query, channels excepted, notifications; options and state of faces. | Invariant over events; the stream of notifications determines the table; functional specification of each command (`Fm_Spec`). |
| C75 | `Ch_Model`: TCP and UDP factories and channels in front of the face manager; connection attempts, timeouts, incoming peers as events. | Invariants over all interleavings: one face per channel and endpoint, answers, definedness. |
| C76 | `Fs_Model`: `FaceSystem::processConfig` and the five factories' `doProcessConfig`, listening, multicast faces of UDP and Ethernet; interface, address and close events. Predicates over interfaces and texts of addresses are parameters. | Readers equal the last valid line of each option (`Fs_Read`); maps of channels and faces given pointwise (`Fs_Proof`); invariants over histories (`Fs_Run`, `Fs_Reload`). |
| C77 | `Et_Model`: frames as octet lists, `checkFrameHeader`, the packet filters as expressions with the offset rule of `vlan` and as texts, the transport with its waits, handlers, idle timer, counters and interface events. libpcap, the kernel and Boost.Asio are events. | Header, filters and texts against the layout of a frame (`Et_Spec.is_frame`); round trip through `from_buffer`; one taker by induction over the peers; an invariant over histories gives the states, that CLOSED is last and that a wait is always pending; a second one relates the timer to the last packet (`Et_Proof`, `Et_Props`). |
| C78 | `Ec_Model`: the Ethernet channel with its table, its filter, the queue of frames of the channel and of each unicast face; libpcap's failures, the frames that arrive between the two filters, and whether setting a filter discards waiting frames are in the events or the state. | Delivery as a permutation of the arrivals by an invariant over quiet histories; table and filter by invariants over all histories; each operation characterised on the whole state. Partial because of the refuted theorems below. |
| C79 | `Ws_Model`: the WebSocket channel and its transports; websocketpp is the environment except that ping() restarts the pong timer and a pong cancels it. | Invariants over timed histories: life cycle, announcements, times of timers relative to when the peer was last heard; each event characterised on the whole state. Partial because of the refuted theorems below. |
| C80 | `Nc_Model`: declarations and reading of command lines, the tokenizer and lines of batch files, the order and exit code of commands; the parsers of ndn-cxx values and the commands themselves are parameters | the reading is compared with a relational grammar (`reads`, `means`, `fields`) in both directions, by induction over the words and the characters; batch files by induction over their items |
| C81 | `Ac_Model`: the stages of a run (`procedure.cpp`, `stage.cpp`), multicast discovery, face creation and registration, the timing of the daemon; answers are events in any order | a relational account of the requests and answers of one run (`story`), proved by an invariant over all orders of answers; the daemon by induction over its events |
| C82 | `Ag_Model`: options, filtering of faces and registrations of nfd-autoreg, with the subnets of C58 | registrations over any history compared with an inductive account of who deserves which prefix (`deserves`, `reported`) |
| C83 | `Un_Model`: the system calls of `UnixStreamChannel::listen`, its destructor and `accept`; several instances, users and crashes share one path | outcome of a start for every state; an invariant over all histories of starts, ends and crashes; interleavings of single system calls for files that are no sockets |
| C84 | `Th_Model`: the steps of `NfdRunner::run` in both threads, with the shared variables, signals and exceptions | an invariant over all interleavings; the states in which no thread can go on are characterised, and a measure shows that every schedule reaches one |
| C85 | `Pr_Model`: `PrivilegeHelper`, the general section, and the rules of the system for changing ids | characterisation of sections; histories of configurations and elevated functions by induction |
| C86 | `Lg_Model`: the log section with its dry run, for one module; parsing of levels is a parameter | the level is compared with an inductive choice of the entry that counts (`chosen`) |
| C87 | `Ds_Model`: reading of a DNS answer at its offsets, the name asked for; `dn_skipname` and `dn_expand` are parameters (a reader of RFC 1035 names in the examples), alignment of the cast is not modelled | answers are laid out field by field (`message`) and the hub compared with the fields; None is a read beyond the buffer |

No property of the list is left out as inexpressible.

## What is partial, and why

`MANIFEST.json` has a note per property. In short: a property is `partial` when some clause of its English statement is false of the code (then a `_refuted` theorem has the counterexample, and the theorems say under which hypotheses the clause holds), or when the manifest note names a case that is not covered.

## Findings: claims that are false of the code

| theorem | where | what happens |
|---|---|---|
| C02_find_incomplete_refuted | `cs.cpp` findImpl | Data whose name ends in an implicit digest component is not found by an Interest for its full name |
| C03_fresh_overflow_refuted | `cs-entry.cpp` updateFreshUntil | a FreshnessPeriod of about 292 years overflows: the packet is stale at once |
| C04_mgmt_erase_refuted | `cs-manager.cpp` erase | with serving off, erase reports completion though packets remain |
| C08_reserved_value_refuted | `dead-nonce-list.cpp` | pairs whose hash is the reserved mark value are reported from the start |
| C15_signal_refuted | `fib-entry.cpp` / `fib.cpp` addOrUpdateNextHop | the iterator is taken before `std::sort`: `afterNewNextHop` announces a wrong nexthop |
| C15_erase_absent_refuted | `fib.cpp` erase | erasing a name with no FIB entry of its own wraps the size |
| C16_find_refuted | `pit.cpp` findOrInsert | removing the last nexthop leaves an empty name tree entry; a Nack for that name trips the assertion (F31) |
| C19_resend_refuted | `pit-entry.cpp` insertOrUpdateOutRecord | re-sending on a face keeps the Nack of the previous Interest |
| C21_digest_refuted | `strategy-choice.cpp` clearStrategyInfo | PIT entries whose name ends in a digest keep the old strategy's information |
| C23_nack_refuted | `forwarder.cpp` onOutgoingNack | a Nack for /localhost leaves by a non-local face when the Interest used NextHopFaceId or the strategy does not check scope |
| C27_token_many_refuted | `forwarder.cpp` onIncomingData | Data that satisfies several entries is sent without PIT tokens |
| C27_token_upstream_refuted | `forwarder.cpp` onContentStoreMiss | an Interest with NextHopFaceId is sent without the strategy, which alone removes the PIT token: the token of the downstream goes to the upstream |
| C28_brief_refuted | `forwarder.cpp` insertDeadNonceList | freshness beyond 292 years counts as short |
| C38_nan_refuted, C38_huge_refuted, C38_bounds_refuted | `retx-suppression-exponential.cpp` | NaN and huge multipliers are accepted and lead to an undefined conversion; rounding lets intervals fall below the initial one |
| C43_trace_refuted | `lp-reliability.cpp:330-337` | with TRACE logging a retransmission reads an erased element |
| C44_complete_refuted | `lp-reliability.cpp` processIncomingPacket | only the first copy refreshes the memory of a Sequence: a later copy can be accepted as new |
| C45_mark_refuted, C45_length_refuted, C45_reserve_refuted | `generic-link-service.cpp` | packets over the MTU are dropped after Acks and marks were added; MTU 23 leaves -1, taken as unlimited |
| C48_defined_refuted, C49_defined_refuted, C50_exception_refuted, C50_late_refuted | `stream-transport.hpp`, `tcp-transport.cpp` | handlers that run after a failure or reconnection trip assertions or throw |
| C52_faces_once_refuted | `rib.cpp` findRoutesWithFaceId | a face removal may list a route twice (harmless) |
| C53_capture_refuted | `rib.cpp` insert | re-registration does not update the capture count |
| C54_*_refuted (9 theorems) | `fib-updater.cpp` | wrong, missing or stale nexthops, and a null pointer dereference, for listed histories |
| C55_once_refuted, C55_one_refuted, C56_remove_refuted | `fib-updater.cpp`, `rib.cpp` | an update may be answered twice or two may run at once after a face is gone; a failed removal is retried as an addition |
| C57_defined_refuted, C57_refresh_refuted, C57_away_refuted, C57_wanted_refuted | `readvertise.cpp` | answers use erased nodes; the refresh timer asserts; a wanted prefix stays withdrawn |
| C58_scope_refuted, C59_throw_refuted | `network.cpp`, `network-predicate.cpp` | scoped addresses; interface names with a slash make the predicate throw |
| C60_unsent_refuted, C60_defined_refuted, C60_hint_refuted, C60_probing_refuted, C60_choose_refuted | `asf-*.cpp` | timeouts for Interests never sent; assertion with forwarding hints; answers not accounted for; no probing; choice runs off the end |
| C61_region_change_refuted | `strategy.cpp` lookupFib | a change of regions under pending Interests trips the assertion |
| C65_defined_refuted | `access-strategy.cpp` addPrefixMeasurements | assertion when Data is governed by another strategy choice |
| C66_nack_refuted, C66_data_refuted, C66_lost_refuted | `self-learning-strategy.cpp` | assertion on Nack without route; Data from another face or without announcement reaches nobody |
| C67_short_refuted, C67_again_refuted, C67_same_type_refuted | `strategy.cpp` find | /localhost and two longer prefixes create the self-learning strategy |
| C68_early_refuted, C68_gone_refuted, C68_defined_refuted, C69_longest_refuted, C69_list_refuted | `rib-manager.cpp`, `rib.cpp` | routes that expire too early or linger, overflow, missed renewals, negative remaining time in the dataset |
| C70_atomic_refuted, C71_range_refuted, C72_atomic_refuted | `command-authenticator.cpp`, `config-file.cpp`, `tables-config-section.cpp` | failed configurations are applied in part; a handler's `std::out_of_range` counts as a missing handler |
| C75_twice_refuted, C75_local_refuted, C75_listen_refuted, C75_destroyed_refuted | `tcp-channel.cpp`, `udp-channel.cpp`, `tcp-factory.cpp` | two answers to one command; assertion when loopback is not configured as local; channels stop listening after one failure; a destroyed face is still reported |
| C76_group_refuted, C76_address_refuted, C76_dry_refuted, C76_netdev_refuted, C76_atomic_refuted, C76_listening_refuted | `udp-factory.cpp`, `face-system.cpp`, `netdev-bound.cpp`, `ethernet-channel.cpp` | a changed multicast group leaves no face; a later address of the other family gets none; a dry run changes marking; a netdev_bound rule passes the dry run and ends the real one; a failed run was partly carried out; an Ethernet channel whose capture failed to start says it listens and is never tried again |
| C77_race_refuted, C77_mtu_refuted, C77_deaf_refuted, C77_stale_refuted | `ethernet-transport.cpp`, `unicast-ethernet-transport.cpp`, `transport.cpp` | a face that is closed between the completion of a wait and its handler reads from a null capture handle (Boost.Asio allows that order; its epoll reactor does not produce it); an incoming packet above the MTU violates an assertion; a permanent face, so every multicast face, never reads again after one failed wait; a face that becomes on-demand again outlives its expiration time because of packets it received long ago |
| C78_order_refuted, C78_drain_refuted, C78_twice_refuted, C78_escape_refuted, C78_half_face_refuted, C78_listen_failed_refuted, C78_deaf_refuted, C78_window_refuted, C78_group_refuted, C78_junk_refuted | `ethernet-channel.cpp` | packets of one peer are passed on out of order when some wait at the channel and later ones at the face; libpcap on Linux drains the queue when a filter is set, so the first packet of a second new peer is lost; a frame that arrives between the making of a face and the new filter is passed on twice; `processIncomingPacket` catches only `EthernetTransport::Error`, so a `PcapHelper::Error` of the face's or the channel's filter leaves the handler; a request that fails in `updateFilter` leaves the face in the table, unannounced; a failed `listen` cannot be repeated; after one failed wait the channel never reads again; frames that arrive while a face is closing are taken by nobody; a frame with a group address as its source makes a face to the group; a frame without a packet makes a face |
| C79_escape_refuted, C79_slow_refuted, C79_oversize_refuted, C79_two_packets_refuted | `websocket-transport.cpp`, `websocket-channel.cpp` | `remote_endpoint()` in the constructor throws if the peer has gone, and nothing catches it in `handleOpen`; `setPingInterval` and `setPongTimeout` accept a pong timeout that is not shorter than the ping interval, and then a dead peer is never noticed; packets above 8800 octets are passed on; what follows the first packet of a message is dropped silently |
| C80_escape_refuted, C80_comment_refuted, C80_abort_refuted, C80_quote_refuted, C80_face_id_refuted, C80_twice_refuted, C80_help_exit_refuted, C80_usage_exit_refuted, C80_batch_exit_refuted | `tools/nfdc/main.cpp`, `command-definition.cpp` | `hasEscapeSlash` counts all backslashes of a line, so a line with one escaped character loses its last character and is joined with the next, and a comment with one backslash swallows the next command; an unknown escape throws an exception that nothing catches; a quote of one kind ends a quotation of the other; `-1` is taken for the face id 2^64-1; an argument given twice is accepted; `--help` and wrong command lines have the exit code 1 (an empty function is called); a failed batch has the exit code of its command, not 2 as the manual says |
| C81_malformed_refuted, C81_identity_refuted, C81_overlap_refuted, C81_lost_change_refuted | `tools/ndn-autoconfig` | the daemon ends with an uncaught exception if a hub answers with malformed content, if no hub is found and there is no default identity, or if the network changes while multicast discovery is in progress and stays so for five seconds; a network change in the last five seconds of a run is forgotten, since the end of the run replaces the planned rerun by one an hour later |
| C82_local_refuted, C82_no_address_refuted | `tools/nfd-autoreg.cpp` | the faces that exist at start-up are not asked for their scope, so local TCP faces get prefixes documented to be for non-local faces; a host that is no address is taken for 0.0.0.0 because the error code is ignored |
| C83_steal_refuted, C83_bound_refuted, C83_exit_refuted, C83_accept_refuted | `unix-stream-channel.cpp` | checking, removing and binding are separate calls: of two instances that start at once over a left-over socket, or of which one has bound but does not listen yet, the second removes the socket of the first; the destructor removes the path without checking whose socket is there; after one failure of `async_accept` it is not called again, so the channel accepts nothing more |
| C84_hang_refuted | `main.cpp` NfdRunner::run | `ribIo` says both that the RIB thread has started and that it has not ended: if the RIB thread fails before the main thread looks, the main thread waits for ever and no signal ends it |
| C85_groups_refuted, C85_early_refuted, C85_reload_refuted | `privilege-helper.cpp`, `nfd.cpp` | `drop` does not change the supplementary groups; `runElevated` ends with `drop` also while the daemon is starting, so the rest of the start is not privileged; a reload changes the configured user but not the process |
| C86_second_refuted, C86_stays_refuted | `log-config-section.cpp` | a second `default_level` is ignored, even if it is no level; a reload resets the levels of modules of NFD only |
| C87_owner_refuted, C87_type_refuted, C87_priority_refuted, C87_dots_refuted | `dns-srv.cpp`, `guess-from-identity-name.cpp` | the port is read twelve octets after the owner begins (the padded size of a ten-octet header), right only for owners of two octets; type and priority are not looked at; identities with dots share names |

## Trusted base

1. The kernel of Coq 8.16.1, with `vm_compute` for closed computations (examples and counterexamples).
2. Axioms: `Print Assumptions` under every property theorem prints "Closed under the global context". No theorem depends on an axiom, neither of the standard library nor of another library. The files load std++ and through it `Coq.ssr.ssreflect`; the module type `Coq.ssr.ssrunder.UNDER_REL` and its opaque implementation make the checker list the seven constants `Coq.ssr.ssrunder.Under_rel.Under_rel`, `.Under_rel_from_rel`, `.Under_relE`, `.Over_rel`, `.over_rel`, `.over_rel_done` and `.under_rel_done` as axioms of a loaded standard library file; nothing here uses them.
3. No axioms, functors, module types, plugins or switched-off checks of our own; no `Admitted`.
4. That the Gallina definitions say what the C++ does. This was done by reading, function by function. ndn-cxx (names, TLV, packets, signals, scheduler, dispatcher, RTT estimator) and Boost (Asio, multi_index, property_tree) are not in `/repo`; they are modelled from their documentation, or are parameters.
5. That the English of `properties.jsonl` is what the theorems say; `X_Spec.v` files and statements are kept small for that.

## What is modelled of `/repo`, and what is not

| part | modelled | not modelled |
|---|---|---|
| `daemon/table` | content store with both policies, dead nonce list, name tree with its hash table, FIB, PIT, strategy choice, measurements, network region table, unsolicited data policy, cleanup | enumeration order beyond what is stated; `Cs::setPolicy` on a store that is not empty |
| `daemon/fw` | forwarder pipelines, all six strategies, suppression, algorithms, registry, face table | logging |
| `daemon/face` | link service, fragmentation, reassembly, reliability, transport state machine, stream and datagram transports, TCP reconnection, TCP and UDP unicast channels and factories, interface predicates, the configuration of all factories with listening channels and multicast faces, Ethernet frames, filters, transports and channels, WebSocket transport and channel, the Unix channel | the multicast UDP transport, internal face, network monitor, the null face |
| `daemon/rib` | RIB, entries, FIB updater, update queue, readvertise with its host-to-gateway policy and NLSR destination | `Service` (start-up) |
| `daemon/mgmt` | FIB, strategy choice, face, CS (erase), RIB managers; command authenticator; forwarder status; tables, general and log sections | the dispatcher and dataset segmentation (ndn-cxx); registration of the manager's own prefix |
| `daemon/common` | configuration file processing, number and yes/no parsing, privilege helper; the threads of `main.cpp` | global scheduler and clocks (they are events) |
| `core`, `tools` | subnets (`core/network`), the command line and batch files of nfdc, hub discovery (ndn-autoconfig), automatic registration (nfd-autoreg) | the commands of nfdc and their output, nfd-status-http-server, ndn-autoconfig-server, the DNS stages of ndn-autoconfig |

Concurrency: the forwarding and the RIB thread only exchange posted functions; in the model each such function is an event, and theorems hold for all orders of events. Data races inside a thread do not exist; memory is not modelled except where a dangling pointer or iterator is the finding.

## Tests of the theorems

`seeded/LOG.jsonl` has one line for each wrong program: the definition that was changed, the change, the claim it breaks, the theorem that no longer proved, and the theorems that were tightened because a wrong program survived.
