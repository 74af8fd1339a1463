{"id": "C01", "title": "Parsing a domain name from text is sound and complete", "statement": "dname_from_string turns a text into exactly the sequence of labels the text denotes (escapes \\X and \\DDD decoded, ASCII letters lower-cased), marks it fully qualified exactly when the text ends in an unescaped dot, and reports INVALID for every other text (empty label, label over 63 bytes, encoded name over 255 bytes, bad escape). A name it returns is always a well-formed uncompressed name of at most 255 wire bytes whose stored length byte is right.", "quantifier": "every text (every byte string, any length)", "why_tests_cant": "Escapes, label limits and the total limit interact at every position; tests sample a few texts.", "anchors": ["libgdnsd/dname.c:dname_from_string", "libgdnsd/dname.c:dns_unescape", "libgdnsd/dname.c:dns_unescape_label"]}
{"id": "C02", "title": "Printing a name and parsing it back gives the same name", "statement": "For every well-formed lower-case name whose labels contain neither '.' nor '\\', parsing the text produced by dname_to_string yields the identical name and the identical fully-qualified/partial status. (Names with those two bytes inside a label are a recorded exception, because the printer does not escape them; the root name is the other, because it prints as the empty text.)", "quantifier": "every well-formed name", "why_tests_cant": "The set of names is infinite and the failing labels are rare byte values.", "anchors": ["libgdnsd/dname.c:dname_to_string", "libgdnsd/dname.c:dname_from_string"]}
{"id": "C03", "title": "Name concatenation, zone membership and zone stripping agree with label-list semantics", "statement": "dname_cat appends the labels of the second name to the first, keeps the second name's qualified/partial status, and refuses exactly when the result would exceed 255 bytes; dname_isinzone is true exactly when the zone's labels are a suffix of the name's labels; dname_drop_zone removes exactly that suffix, so re-appending the zone restores the name; the memory written never exceeds a 256-byte name buffer.", "quantifier": "every pair of well-formed names", "why_tests_cant": "The byte-level code never looks at label boundaries except through lengths; tests cannot cover every alignment of a suffix that is not on a label boundary.", "anchors": ["libgdnsd/dname.c:dname_cat", "include/gdnsd/dname.h:dname_isinzone", "include/gdnsd/dname.h:dname_drop_zone"]}
{"id": "C04", "title": "Untrusted name bytes are classified without reading past the supplied buffer", "statement": "The bounded name checker classifies an arbitrary buffer as INVALID, PARTIAL or VALID, reads only bytes inside the buffer, and every name it accepts is a sequence of labels that ends exactly at the encoded length.", "quantifier": "every byte buffer and every buffer length", "why_tests_cant": "Memory safety on adversarial bytes must hold for every buffer.", "anchors": ["libgdnsd/dname.c:dname_status_buflen", "libgdnsd/dname.c:dname_status"]}
{"id": "C05", "title": "Query parsing never reads outside the received packet and never trips an assertion", "statement": "Decoding any received datagram or TCP message of any content and of any length up to the receive limit performs only reads inside the received bytes and ends in a definite decision (drop, error response, or answerable query), including all EDNS option parsing.", "quantifier": "every packet content and length, UDP and TCP, with and without a DSO session", "why_tests_cant": "Memory safety over adversarial input: the failing packet is one in 2^8192.", "anchors": ["src/dnspacket.c:decode_query", "src/dnspacket.c:parse_query_rrs", "src/dnspacket.c:parse_optrr", "src/dnspacket.c:handle_edns_options", "src/dnspacket.c:parse_first_question"]}
{"id": "C06", "title": "Packets that are not queries are never answered", "statement": "A packet shorter than a DNS header or with the response bit set gets no response; every response that is sent is for a packet with the response bit clear and carries the response bit itself, so two gdnsd servers can never bounce packets at each other. Nothing else is dropped, except queries with a keepalive option inside an established DSO session.", "quantifier": "every packet", "why_tests_cant": "Reflection loops depend on any one malformed packet being answered.", "anchors": ["src/dnspacket.c:decode_query", "src/dnspacket.c:process_dns_query"]}
{"id": "C07", "title": "Client-subnet option validation is exact", "statement": "A client-subnet option is accepted exactly when its family is IPv4 or IPv6, its source length is within the family's bits, its scope length is zero, its address has exactly the minimal number of bytes, and all bits beyond the source length are zero; otherwise the answer is FORMERR. The accepted subnet is the one echoed in the response with the same family, source length and address bytes.", "quantifier": "every option payload", "why_tests_cant": "Bit-exact acceptance over all payloads.", "anchors": ["src/dnspacket.c:handle_edns_client_subnet", "src/dnspacket.c:do_edns_output"]}
{"id": "C08", "title": "Every response echoes the query identity and is a well-formed header", "statement": "Every response keeps the query's 16-bit ID, opcode, RD flag and question bytes, sets the response flag, never sets RA, AD, Z or CD-reserved bits other than those the code intends, and its section counts equal the number of records that follow.", "quantifier": "every answered packet and every zone content", "why_tests_cant": "A count mismatch appears only for particular record mixes.", "anchors": ["src/dnspacket.c:process_dns_query", "src/dnspacket.c:answer_from_db", "src/dnspacket.c:do_edns_output"]}
{"id": "C09", "title": "Name compression is lossless", "statement": "Any sequence of owner names and targets written into a response with the compression writer decodes, by the standard RFC 1035 decompression procedure, back to the names given: exactly when the client's question has no capital letters, and otherwise up to the case of letters taken from the question; nothing written earlier changes, every pointer refers strictly backwards to an offset below 0x4000, so decompression always terminates; the target table never exceeds its 16 slots.", "quantifier": "every sequence of names, every packet offset, every query-name letter case", "why_tests_cant": "Which suffix is found depends on all names written earlier in the packet; combinatorial.", "anchors": ["src/dnspacket.c:store_dname_comp", "src/dnspacket.c:ctargets_add_qname", "src/dnspacket.c:store_dname_nocomp", "src/dnspacket.c:repeat_name"]}
{"id": "C10", "title": "Answer rotation is a permutation", "statement": "Shuffling the address records of an answer yields a reordering of exactly the same records - none lost, duplicated or altered - for every outcome of the random generator; and every ordering can occur.", "quantifier": "every record count, every record size, every random sequence", "why_tests_cant": "Random outcomes cannot be enumerated by tests.", "anchors": ["src/dnspacket.c:shuffle_addrs_rdata"]}
{"id": "C11", "title": "Bounded random choice is in range and exactly uniform", "statement": "gdnsd_rand32_bounded(n) always returns a value below n for n>=1, always terminates its rejection loop with an acceptable sample existing, and each value is produced by exactly the same number of accepted generator outputs (no modulo bias).", "quantifier": "every bound and every 32-bit generator output", "why_tests_cant": "2^32 x 2^32 cases.", "anchors": ["include/gdnsd/rand.h:gdnsd_rand32_bounded"]}
{"id": "C12", "title": "The zone tree's child table behaves as a map for any insertion history", "statement": "After any sequence of adding labels under a node - with any hash values, collisions and table growths - looking up a label finds exactly the child that was added for it, and finds nothing for labels never added.", "quantifier": "every insertion sequence, every hash function", "why_tests_cant": "Robin-Hood displacement and early-exit bugs need particular collision patterns.", "anchors": ["src/ltree.c:ltree_node_insert", "src/ltree.c:ltree_node_find_or_add_child", "src/ltree.h:ltree_node_find_child"]}
{"id": "C13", "title": "Lookup follows the DNS tree rules", "statement": "For a query name inside a served zone, the lookup returns: the delegation point when a zone cut lies on the path; otherwise the exact node; otherwise the wildcard under the closest enclosing node; otherwise name-error. For a name under no served zone it is refused.", "quantifier": "every tree and every query name", "why_tests_cant": "Closest-encloser and wildcard interplay over arbitrary trees.", "anchors": ["src/dnspacket.c:search_ltree_for_dname"]}
{"id": "C14", "title": "A zone that loads respects the DNS record constraints", "statement": "If adding records to a zone succeeds, then no name has both CNAME (or dynamic CNAME) and other data, no name has two CNAMEs or SOAs, delegation points carry only NS and glue data, addresses of one dynamic/static kind per name, and at most the configured maximum of NS records.", "quantifier": "every sequence of record additions", "why_tests_cant": "Order of additions matters; all permutations must be rejected or accepted alike.", "anchors": ["src/ltree.c:ltree_add_rec_*", "src/ltree.c:ltree_postproc_phase1", "src/ltree.c:p1_check_cname"]}
{"id": "C15", "title": "CNAME chains in accepted zones are bounded", "statement": "Following in-zone CNAMEs from any name of an accepted zone terminates within the fixed maximum depth; loops are rejected at load time.", "quantifier": "every zone", "why_tests_cant": "Loops of arbitrary length.", "anchors": ["src/ltree.c:p1_check_cname"]}
{"id": "C16", "title": "Server cookies are accepted exactly inside the key window", "statement": "A server cookie is accepted exactly when it equals the keyed hash of the same client cookie and client address under the previous, current or next hour's key of the server's last rotation. A cookie issued by one server is accepted by any server sharing its key, itself included, at any time up to an hour (less two seconds and the delay of timers) away by the two clocks, whatever their rotation schedules. A key made up by the server survives restarts; a configured key file yields the same key on every server.", "quantifier": "every cookie, client address, and rotation schedule of two servers", "why_tests_cant": "Time-window edges and rotation interleavings.", "anchors": ["src/cookie.c:cookie_process", "src/cookie.c:rotate_timekeys", "src/cookie.c:hourly_callback", "src/cookie.c:cookie_config"]}
{"id": "C17", "title": "Subnet maps resolve by longest-prefix match", "statement": "For any list of configured networks in any order, nesting and adjacency, in which no network is given twice differently and each is the longest match of at least one address, the load succeeds without a warning and every client gets the list of the longest network holding its address, or the default if none does; IPv6 forms of IPv4 addresses count as the IPv4 address. A network inside those forms' spaces, or with too long a prefix, is refused. (Without the condition that each network is some address's longest match the claim is false: see the refuted theorem.)", "quantifier": "every network list and every 128-bit address", "why_tests_cant": "2^128 addresses times all lists.", "anchors": ["libgdmaps/nlist.c:nlist_finish", "libgdmaps/nlist.c:nlist_normalize", "libgdmaps/nlist.c:nlist_xlate_tree", "libgdmaps/ntree.c:ntree_lookup_inner"]}
{"id": "C18", "title": "Explicit networks override the GeoIP database exactly where they apply", "statement": "Merging the configured nets over the GeoIP tree yields, for every address, the configured nets' answer wherever a configured net matches and the database's answer elsewhere.", "quantifier": "every pair of lists and every address", "why_tests_cant": "2^128 addresses.", "anchors": ["libgdmaps/nlist.c:nlist_merge", "libgdmaps/gdmaps.c:gdmap_update_trees"]}
{"id": "C19", "title": "Client-subnet scope is sound for caches", "statement": "If a lookup for an address reports scope mask m, every address sharing the first m bits gets the same datacenter list, so a resolver that caches by (prefix, m) never serves another client's answer.", "quantifier": "every tree and every pair of addresses", "why_tests_cant": "Pairs of 128-bit addresses.", "anchors": ["libgdmaps/ntree.c:ntree_lookup", "libgdmaps/gdmaps.c:gdmap_lookup"]}
{"id": "C20", "title": "Automatic datacenter ordering is by distance", "statement": "For coordinates known to the map, the generated list is a permutation of the datacenters, ordered by increasing distance with ties kept in configuration order, cut to the configured auto limit.", "quantifier": "every coordinate set and every client location", "why_tests_cant": "Arbitrary numbers of datacenters and ties.", "anchors": ["libgdmaps/dclists.c:dclists_city_auto_map"]}
{"id": "C21", "title": "Failover address groups return healthy addresses and never an empty answer", "statement": "multifo returns exactly the addresses not DOWN when enough are up; otherwise it returns every address of the set and marks the result DOWN; the TTL is the minimum over all members; the answer is never empty and never repeats or invents an address.", "quantifier": "every address set, threshold and health state", "why_tests_cant": "2^n health combinations.", "anchors": ["src/plugins/multifo.c:resolve", "src/plugins/multifo.c:plugin_multifo_resolve"]}
{"id": "C22", "title": "Weighted selection returns only eligible items and always something", "statement": "weighted returns only items configured with the resource, only healthy ones while the up-threshold is met, never returns an empty answer, never picks the same address twice, and its per-item inclusion (multi mode) or choice (single mode) follows weights exactly: item i is chosen for exactly w_i of the sum of weights random values.", "quantifier": "every weight vector, health state and random outcome", "why_tests_cant": "Random outcomes and weights are unbounded.", "anchors": ["src/plugins/weighted.c:resolve", "src/plugins/weighted.c:resolve_cname"]}
{"id": "C23", "title": "simplefo follows its state chart", "statement": "simplefo answers with the primary when it is up, with the secondary when only that is up, with the primary and DOWN status when both are down. The TTL is the primary's in the first case, the smaller of both in the second, and the secondary's in the third.", "quantifier": "all state-TTL pairs", "why_tests_cant": "32-bit state words squared.", "anchors": ["src/plugins/simplefo.c:resolve_addr", "src/plugins/simplefo.c:plugin_simplefo_resolve"]}
{"id": "C24", "title": "Datacenter failover picks the first usable datacenter", "statement": "metafo/geoip answer with the first datacenter of the ordered list (restricted to those the resource defines) that is not DOWN; if all are down, with the first one and DOWN status; administrative per-datacenter states override plugin results.", "quantifier": "every list, every per-datacenter outcome", "why_tests_cant": "Exponential state space.", "anchors": ["src/plugins/meta_core.inc:resolve", "src/plugins/meta_core.inc:resolve_dc"]}
{"id": "C25", "title": "Monitored state changes only after the configured number of probe results", "statement": "For any history of probe results, a resource that is up goes down only once down_thresh failures have accumulated with no run of ok_thresh consecutive successes in between, and comes back only after up_thresh consecutive successes; the TTL published always covers the shortest time in which the state could change.", "quantifier": "every probe history and every threshold setting", "why_tests_cant": "Unbounded histories.", "anchors": ["src/plugins/mon.c:gdnsd_mon_state_updater", "src/plugins/mon.c:raw_sttl_update"]}
{"id": "C26", "title": "Administrative state is authoritative, all-or-nothing and reversible", "statement": "After a valid admin-state file is processed, every monitored item shows the forced state of the last matching line and every unmatched item its real monitored state; an invalid file changes nothing; removing the file restores the real state of everything, including changes that happened while forced.", "quantifier": "every admin file history interleaved with monitor updates", "why_tests_cant": "Interleavings of admin updates and probes.", "anchors": ["src/plugins/mon.c:admin_process_hash", "src/plugins/mon.c:admin_deleted_file", "src/plugins/mon.c:raw_sttl_update"]}
{"id": "C27", "title": "State/TTL text parsing and combination are exact", "statement": "A textual state is accepted exactly if it is UP or DOWN (any letter case), optionally followed by a slash and a TTL in range written as strtoul reads numbers, and denotes that state; so every text of the documented form is accepted (and the lenience of strtoul, which also takes signs and leading white space, is the only addition); combining states yields the minimum TTL and is DOWN (or forced) exactly if any member is.", "quantifier": "every text; every list of states", "why_tests_cant": "All 32-bit values and lists.", "anchors": ["src/plugins/mon.c:gdnsd_mon_parse_sttl", "src/plugins/mon.h:gdnsd_sttl_min2"]}
{"id": "C28", "title": "Readers always see a complete, published state table", "statement": "Resolver threads reading monitored state see exactly one of the tables published by the main thread - never a mix - and after a grace period see the newest one; memory being read is never being written.", "quantifier": "every interleaving of readers and the publisher", "why_tests_cant": "Thread schedules.", "anchors": ["src/plugins/mon.c:sttl_table_update"]}
{"id": "C29", "title": "TCP message framing is independent of segmentation", "statement": "Whatever way the client's byte stream is cut into reads, the server processes exactly the same sequence of requests: each length-prefixed message once, in order, and the connection is closed exactly at the first illegal length.", "quantifier": "every byte stream and every segmentation", "why_tests_cant": "Exponentially many segmentations.", "anchors": ["src/dnsio_tcp.c:read_handler", "src/dnsio_tcp.c:conn_check_next_req", "src/dnsio_tcp.c:conn_respond", "src/dnsio_tcp.c:conn_do_recv"]}
{"id": "C30", "title": "The TCP connection queue is ordered by idleness and bounded", "statement": "For every history of accepts, requests, closes and timeouts with a non-decreasing clock, the number of open connections stays below the limit, the connection killed for load is a most idle one, a timeout closes exactly the connections idle at least the timeout, and bookkeeping assertions never fail.", "quantifier": "every event history", "why_tests_cant": "Unbounded histories.", "anchors": ["src/dnsio_tcp.c:connq_append_new_conn", "src/dnsio_tcp.c:connq_refresh_conn", "src/dnsio_tcp.c:timeout_handler", "src/dnsio_tcp.c:connq_pull_conn"]}
{"id": "C31", "title": "Batched UDP sending transmits every response exactly once", "statement": "For any pattern of dropped and answered packets in a batch, and any pattern of partial sends and errors from the kernel, each non-empty response is handed to the kernel successfully at most once and in order, is skipped only after a reported error on it, empty ones are never sent, and the loop terminates.", "quantifier": "every batch and every kernel return sequence", "why_tests_cant": "All partial-send patterns.", "anchors": ["src/dnsio_udp.c:process_mmsgs"]}
{"id": "C32", "title": "PROXY headers: exactly the whole, well formed ones are accepted", "statement": "For every string of received connection bytes whose first line of text is within the protocol's limit, parsing a PROXY v1 or v2 header reads and writes only received bytes. It accepts exactly the strings that begin with a whole, well formed header, consumes exactly that header, takes the peer it names and leaves the rest of the stream to be framed as requests. A header that has arrived only in part is refused. (A longer line of text violates an assertion; a theorem shows it.)", "quantifier": "every byte string; every split of the stream", "why_tests_cant": "Adversarial bytes.", "anchors": ["src/proxy.c:proxy_parse", "src/proxy.c:parse_proxy_v1", "src/dnsio_tcp.c"]}
{"id": "C33", "title": "The external-monitor command pipe is lossless", "statement": "A command written by the daemon is read back by the helper with identical index, timeout, interval, argument list and description, for every command that fits the format's size fields; malformed bytes are rejected, not misread.", "quantifier": "every command; every byte stream", "why_tests_cant": "Argument lists of any shape.", "anchors": ["src/plugins/extmon_comms.c:emc_write_command", "src/plugins/extmon_comms.c:emc_read_command", "src/plugins/extmon_comms.h:emc_encode_mon"]}
{"id": "C34", "title": "Extfile reloads are all-or-nothing", "statement": "Reading a state file either gives every resource of the service type exactly the state its entry says (the default if it has no entry) and touches no other resource, or, if the file cannot be read or any entry is invalid, changes nothing. In direct mode the file is read once no change has been seen for 1.02 seconds after a change.", "quantifier": "every file content and monitor set", "why_tests_cant": "Partial application is visible only for particular error positions.", "anchors": ["src/plugins/extfile.c:process_file"]}
{"id": "C35", "title": "ACME challenge answers are exactly the live challenges", "statement": "In every interleaving of requests, expiry, flushes and query threads: a query thread sees one unchanging view for the whole query, which is the challenges of the accepted requests that were neither expired nor flushed when it began; under _acme-challenge.NAME it finds exactly the challenges of NAME, never more than 201, and never touches freed memory. A request is accepted whole or not at all, is visible until 3.2 s before its time is up, and is gone at the first look at the clock after that; nothing leaks. With up to 201 challenges no legal request is refused. A daemon taking over serves the same challenges for the whole seconds they had left (their expiry may be late: see the refuted theorem).", "quantifier": "every history of requests, clock readings, flushes and handoffs, every hash function, every interleaving with any number of query threads", "why_tests_cant": "Use after free and mixed views appear only in rare interleavings; hash collisions and expiry orders cannot be enumerated.", "anchors": ["src/chal.c:cset_create", "src/chal.c:chal_tbl_create", "src/chal.c:chal_respond", "src/chal.c:cset_expire", "src/chal.c:cset_flush", "src/chal.c:csets_serialize", "src/main.c:do_tak2"]}
{"id": "C36", "title": "Statistics survive daemon replacement", "statement": "After any number of replacements of the daemon the report shows, under each name, the sum of what the threads of all daemons counted for that statistic (modulo 2^64) and the time since the first one started, however the handoff was cut up by the socket; the report always fits its buffer. A peer that knows fewer or more statistics agrees on the common ones; a handoff cut short leaves the new daemon with its own numbers. (The check on the length of the message is wrong: see the refuted theorem.)", "quantifier": "every set of threads and counter values, every chain of replacements, every split of the stream", "why_tests_cant": "All 64-bit values, vector lengths and stream splits.", "anchors": ["src/statio.c:statio_serialize", "src/statio.c:statio_deserialize", "src/statio.c:populate_statio", "src/statio.c:statio_get_json", "src/css.c:css_send_stats_handoff", "src/csc.c:csc_get_stats_handoff"]}
{"id": "C37", "title": "Label arena allocations never overlap or overflow a pool", "statement": "In a program that uses label arenas as documented (no use after merge or destroy, no allocation after close), no call ever reads or writes outside an arena's array or frees a pool twice; all the blocks still held, from all arenas, lie wholly inside pools that are still allocated and share no byte, whatever was merged or closed; blocks never move; once all arenas are destroyed nothing is left allocated. (The rule about close is needed: see the refuted theorem.)", "quantifier": "every sequence of arena creations, allocations, merges, closes and destructions over any number of arenas", "why_tests_cant": "Allocation-size sequences and merge orders.", "anchors": ["src/ltarena.c:lta_new", "src/ltarena.c:lta_malloc", "src/ltarena.c:lta_merge", "src/ltarena.c:lta_close", "src/ltarena.c:lta_destroy"]}
{"id": "C38", "title": "Map data stays consistent for readers during reloads", "statement": "A lookup that runs while map data is reloaded never touches freed memory, always gets a list index that exists in the lists it sees, and answers exactly what the data of one single update says, an update that was in force at some time during the lookup's read section; a reload that fails changes nothing, a reload that succeeds takes effect with the next update, nothing is put in force without one, and replaced data is freed. (Assumes that the lookup's two pointer loads are not reordered; a theorem shows that reordering breaks it.)", "quantifier": "every interleaving of reload and lookups", "why_tests_cant": "Thread schedules.", "anchors": ["libgdmaps/gdmaps.c:gdmap_tree_update", "libgdmaps/gdmaps.c:gdmap_update_geoip", "libgdmaps/gdmaps.c:gdmap_update_nets", "libgdmaps/gdmaps.c:gdmap_lookup", "libgdmaps/dclists.c:dclists_clone", "libgdmaps/dclists.c:dclists_find_or_add_raw", "libgdmaps/dclists.c:dclists_destroy"]}
{"id": "C39", "title": "EDNS responses fit the negotiated size", "statement": "Every UDP response fits the client's advertised size clamped to the configured limits, or is truncated with the TC flag to header, question and OPT (except the fixed CHAOS answer, and the lower limit for clients without a cookie, which truncated responses may exceed); every TCP response fits the server's buffer; when padding is enabled for a TCP query with an OPT record, the size of the response is a multiple of the block size.", "quantifier": "every query, zone answer size and configuration", "why_tests_cant": "Sizes around the limits depend on all options at once.", "anchors": ["src/dnspacket.c:process_dns_query", "src/dnspacket.c:do_edns_output", "src/dnspacket.c:answer_from_db"]}
{"id": "C40", "title": "The connection-cache size is an exact integer square root", "statement": "The helper used to size the per-thread connection cache returns floor(sqrt(n)) for every 64-bit n.", "quantifier": "every 64-bit input", "why_tests_cant": "2^64 inputs.", "anchors": ["src/dnsio_tcp.c:sqrt_sizet"]}
{"id": "C41", "title": "The monitored-state listing is complete and stays inside its buffer", "statement": "At any time the state listing sent to the control client contains exactly one line per monitored item, in registration order, with its description, its effective state (marked when administratively forced) and its real state; producing it never writes past the buffer sized at startup.", "quantifier": "every set of items and every history of monitor results and admin files", "why_tests_cant": "The buffer is sized once at startup while states change at run time.", "anchors": ["src/plugins/mon.c:gdnsd_mon_states_get_json", "src/plugins/mon.c:init_max_states_len"]}
{"id": "C42", "title": "An answer holds exactly the zone's data for the question", "statement": "For every question in any letter case, the answer, authority and additional sections of the reply hold exactly the records that the loaded zone data (plus live challenge records) give for that name and type - data, alias, wildcard, referral with glue, no-data and name-error with the SOA, or refusal - each record decodable at its place, with the matching counts, response code and authoritative flag, and building the reply never overruns the packet buffer when the records fit.", "quantifier": "every well-formed zone tree, question, type, set of challenges, plugin result and random draws", "why_tests_cant": "Trees, names and record sets are unbounded; compression interacts with record order.", "anchors": ["src/dnspacket.c:answer_from_db", "src/dnspacket.c:search_ltree_for_dname", "src/dnspacket.c:construct_normal_response", "src/dnspacket.c:do_auth_response"]}
{"id": "C43", "title": "Followed aliases appear in order before the final data", "statement": "When in-zone alias following is enabled, the reply lists each alias of the chain once and in order, then what the last target's name gives for the asked type, with the response code of the last name.", "quantifier": "every zone tree, question in lower case, chain length", "why_tests_cant": "Chains are unbounded and each step depends on compression state.", "anchors": ["src/dnspacket.c:answer_from_db", "src/dnspacket.c:dname_is_in_wire_zone", "src/dnspacket.c:encode_rr_cname"]}
{"id": "C44", "title": "DSO requests are answered as RFC 8490 says", "statement": "With DSO enabled, a DNS Stateful Operations request over TCP whose counts are zero, whose ID is not zero and whose items fill the message exactly is answered with the same ID: a keepalive request (8 bytes of data) with an unlimited keepalive interval and the server's inactivity time, any other first item except retry-delay and padding with DSOTYPENI. Every other such request over TCP gets no answer (and the connection is closed); over UDP the answer is FORMERR. A session is established by such a keepalive request and by nothing else.", "quantifier": "every request with the DSO opcode", "why_tests_cant": "Items are arbitrary byte strings with embedded lengths, in any number.", "anchors": ["src/dnspacket.c:handle_dso", "src/dnspacket.c:decode_query", "src/dnspacket.c:process_dns_query"]}
{"id": "C45", "title": "A place gets the list the map prescribes", "statement": "For every database entry the map of places is searched by continent, country, subdivisions and city in that order, letter case ignored: the deepest matching entry decides, else the default of the innermost matching map, else that of the maps around it, with automatic lists where the map says auto. However often and in whatever order entries are met while a database is loaded, each gets the number of a list with exactly that content, and nothing is read or written out of bounds while names fit.", "quantifier": "every map stanza, every database with readable entries, every order of lookups", "why_tests_cant": "Maps nest without bound, lists are shared and cached by position in the file.", "anchors": ["libgdmaps/dcmap.c:dcmap_new", "libgdmaps/dcmap.c:dcmap_llc_", "libgdmaps/gdgeoip2.c:geoip2_get_dclist_cached", "libgdmaps/dclists.c:dclists_find_or_add_raw"]}
{"id": "C46", "title": "Results of external checks arrive once each and in order", "statement": "For every order in which the helper's timers fire, its children end, its pipe takes data and a signal arrives: every check the helper starts has exactly one result unless it is still running, the daemon reads exactly these results, each for the right monitor and in the order in which the checks ended, and no more checks run at once than a monitor's limit allows when it starts one. (Assumes that a killed child is reaped before its monitor's next check begins; theorems show what happens otherwise.)", "quantifier": "every number of monitors up to 65536; every sequence of events; every pattern of full and interrupted writes", "why_tests_cant": "Schedules of timers, children and signals.", "anchors": ["src/plugins/extmon_helper.c:mon_interval_cb", "src/plugins/extmon_helper.c:mon_timeout_cb", "src/plugins/extmon_helper.c:mon_child_cb", "src/plugins/extmon_helper.c:sendq_enq", "src/plugins/extmon_helper.c:plugin_write_cb", "src/plugins/extmon_helper.c:die_gracefully", "src/plugins/extmon.c:helper_read_cb"]}
{"id": "C47", "title": "The server serves exactly what the zone files say", "statement": "After a load of any set of zones succeeds, every name of a zone exists exactly if a record has that name or one below it, and holds exactly the record sets its records make (limited TTLs, order of records, glue of delegations); names outside all zones hold nothing; no zone is loaded twice or inside another; and every lookup through the hash tables finds what the tree holds.", "quantifier": "every list of zones and records, every hash function, every plugin configuration", "why_tests_cant": "Zones, orders of records and hash collisions are unbounded.", "anchors": ["src/ltree.c:ltree_add_rec_*", "src/ltree.c:ltree_merge_zone", "src/ltree.c:ltree_postproc_zone", "src/ltree.h:ltree_node_find_child", "src/dnspacket.c:search_ltree_for_dname"]}
{"id": "C48", "title": "Every answer from loaded zones fits the response buffer", "statement": "Take any set of zone files the server accepts and the settings it runs with. For every query packet, over UDP or TCP, whatever the plugins answer within their limits, the complete response - header, question, all records of the answer, glue and the largest OPT record the settings allow - fits the fixed response buffer: no query makes the server fail an assertion or write outside the buffer. (ACME challenges are the exception: enough of them at a name with large TXT data overrun the buffer over TCP.)", "quantifier": "all zone data accepted by the loader, all settings, all plugin results within the limits, all packets of up to 1024 bytes", "why_tests_cant": "the size of an answer depends on all of the zone's data (chains of aliases, glue, names that cannot be compressed) and the check is made once, at load time, long before the query arrives", "anchors": ["src/ltree.c: p1_rrset_size, p1_chase_cname, ltree_postproc_phase1", "src/dnspacket.c: process_dns_query, do_edns_output", "src/chal.c: chal_respond"]}
{"id": "C49", "title": "A reload that is reported done has taken effect", "statement": "A control client that asks for a reload of the zones and is told of success is from then on served data whose load began no earlier than its request; told of failure, a load begun no earlier than its request has failed. A client that waits is waiting for a load that is running or that follows the running one. Served zone data only gets newer, and data a query has in hand is not freed before the query is done. (Assumes that no replacement daemon dies while a load is running: then a second load runs at the same time, and a success may be reported for data that is soon replaced by older data, or zone data is freed twice.)", "quantifier": "every number of clients, every interleaving of requests, partial writes, the loading thread and queries", "why_tests_cant": "Schedules of the loading thread, the main loop and queries; requests may come at any time of a running load.", "anchors": ["src/css.c:css_notify_zone_reloaders", "src/css.c:handle_req_zrel", "src/main.c:reload_zones_done", "src/main.c:zone_data_reloader_thread", "src/ltree.c:ltree_load_zones"]}
{"id": "C50", "title": "Control clients get whole answers to their requests, in order", "statement": "What happens on a control connection is a sequence of whole exchanges - a request, then exactly the answer it calls for, with the announced number of bytes or sockets - and the beginning of one, however reads and writes are split. No client is left without a way to go on: the daemon reads from it, writes to it, or it waits for a reload or a replacement under way. Whatever clients send in whatever order, no assertion fails and nothing is used after it is freed, as long as new daemons keep to the takeover protocol (theorems show what happens otherwise).", "quantifier": "every history of any number of clients, every split of reads and writes, every request", "why_tests_cant": "Histories of several clients and partial reads and writes are unbounded.", "anchors": ["src/css.c:css_conn_read", "src/css.c:css_conn_write", "src/css.c:latr_all_wait", "src/css.c:respond", "src/css.c:css_conn_cleanup", "src/css.c:css_accept"]}
{"id": "C51", "title": "Control actions need permission and follow the takeover rules", "statement": "Everything the daemon does for control clients (take challenges, flush them, reload, start a replacement, accept one, hand over its sockets, stop) was asked for on a connection permitted to ask for it, with exactly that data; clients over TCP never stop the daemon or get its sockets, and do the rest only with the permission for it. While a replacement is under way nothing else is done, only one is under way, and only the one that announced itself gets the sockets or stops the daemon. If it dies, the daemon serves as before and whoever asked for it is told.", "quantifier": "every history of clients and replacements", "why_tests_cant": "Interleavings of several clients, replacements and their deaths.", "anchors": ["src/css.c:handle_req_repl", "src/css.c:handle_req_tak1", "src/css.c:handle_req_tak2", "src/css.c:handle_req_take", "src/css.c:handle_req_stop", "src/css.c:css_watch_replace", "src/css.c:css_conn_read"]}
{"id": "C52", "title": "A new daemon takes over the sockets, each exactly once", "statement": "A new daemon that asks the old one for its sockets gets all of them, in order, or gives up or goes on waiting; it never goes on with some of them. It gives each DNS socket to at most one thread, only to one with that address and protocol; as many threads per address and protocol start with a socket as the old daemon had sockets for it; sockets nobody needs are closed, and none is lost. With an unchanged configuration every thread goes on with the socket its predecessor had, so no packet queued on it is lost, and the next replacement gets the same list.", "quantifier": "every history of the old daemon, every number of sockets and threads, every split of the sockets into messages, every set of addresses", "why_tests_cant": "Numbers of sockets and threads, changes of configuration and failures in the middle are unbounded.", "anchors": ["src/csc.c:csc_txn_getfds", "src/csc.c:get_control_fds", "src/css.c:socks_import_fd", "src/css.c:css_new", "src/css.c:css_start", "libgdnsd/net.c:gdnsd_anysin_cmp"]}
{"id": "C53", "title": "The control client reports the daemon's answer and delivers challenges unchanged", "statement": "gdnsdctl (and a new daemon) reports success for statistics or states only with exactly the text the daemon made for that request, however it arrives; an answer that is cut off is never taken for a whole one. Data sent with a request is sent in order and success is reported only if all of it was sent. For any command-line arguments the challenge command either makes a request that says exactly the names and challenges given, which the daemon accepts and hands to its challenge store unchanged, or refuses, and it refuses only arguments that are not 1 to 100 pairs of a legal name and 43 base64url characters.", "quantifier": "every history of the daemon, every split of the bytes, every list of arguments", "why_tests_cant": "Splits of the byte stream and argument texts are unbounded.", "anchors": ["src/csc.c:csc_txn", "src/csc.c:csc_txn_getdata", "src/csc.c:csc_txn_senddata", "src/gdnsdctl.c:action_chal", "src/cs.h:csbuf_t"]}
{"id": "C54", "title": "Zone files are read as they are written", "statement": "A zone file (with the files it includes) is accepted exactly if its text is a sequence of well-formed lines - comments, parentheses, quotes, escapes, relative names, default TTLs, origins, units of time and all record types as documented - and the records it gives, in order, are exactly those the text says. The text never has two meanings. When the records of all zones have loaded, each name in a zone exists and holds data by what the zone's text says.", "quantifier": "every sequence of bytes as file content, every set of files including each other to any depth, every zone name and origin", "why_tests_cant": "Texts are unbounded, and lines interact through the origin, the default TTL and the last owner.", "anchors": ["src/zscan_rfc1035.rl:preprocess_buf", "src/zscan_rfc1035.rl:dname_set", "src/zscan_rfc1035.rl:dn_qualify", "src/zscan_rfc1035.rl:text_add_tok", "src/zscan_rfc1035.rl:machine zone", "src/zscan_rfc1035.rl:zscan_do"]}
{"id": "C55", "title": "Which zone files can bring the daemon down", "statement": "Reading a zone's file, with the files it includes, either gives its records or refuses it with a message; the process does not go down. The exceptions are listed and are the only ones: an empty file; a line with an empty quoted name on the right side (or as origin) or an empty quoted file name; generic data of length 0; files that include each other deeper than the stack allows, without end if a file includes itself.", "quantifier": "every sequence of bytes as file content, every set of files including each other to any depth, lines broken off at any byte", "why_tests_cant": "The text is arbitrary and a crash may hide behind any prefix of any line after any other lines.", "anchors": ["src/zscan_rfc1035.rl:dname_set", "src/zscan_rfc1035.rl:set_filename", "src/zscan_rfc1035.rl:rfc3597_data_setup", "src/zscan_rfc1035.rl:scanner", "src/zscan_rfc1035.rl:process_include"]}
{"id": "C56", "title": "Configuration files are read as they are written", "statement": "A configuration file that follows the documented syntax - nested hashes and arrays, strings with and without quotes, escapes, comments, optional commas, includes relative to the including file, includes of directories and of patterns - is read as exactly the data it says, hash entries in the order of the text; a file is never accepted with another meaning, except that a value which is an include of an empty directory may be passed over. No accepted hash has a key twice. All data can be written. Reading a file never brings the process down unless includes nest as deep as the stack allows (or two strings stand next to each other with nothing between, depending on the order in which Ragel runs actions).", "quantifier": "every sequence of bytes as file content, every set of files including each other to any depth, every answer of glob and stat", "why_tests_cant": "Texts and nesting are unbounded, and an include can put any data anywhere.", "anchors": ["libgdnsd/vscf.rl:machine vscf", "libgdnsd/vscf.rl:unescape_string", "libgdnsd/vscf.rl:vscf_include_file", "libgdnsd/vscf.rl:scnr_proc_include", "libgdnsd/vscf.rl:vscf_scan_buf", "libgdnsd/vscf.rl:vscf_scan_filename", "docs/gdnsd.config.podin:LOW-LEVEL SYNTAX"]}
{"id": "C57", "title": "Health checks test what they say, report once, end in time and go on", "statement": "A service type for http_status or tcp_connect is accepted exactly if its options are the documented ones with values in their ranges, and then means what they say (the request has the given path and host, 200 is the default code, the timeout is less than the interval). Whatever the network does and in whatever order events come, each check of an address reports its result exactly once: up exactly if the connection came about and, for HTTP, the whole request was sent and the answer begins with HTTP/1.0 or HTTP/1.1 and one of the codes. A check is given up only because of an error, a whole wrong answer, or the end of its time; at the end of its time it is given up. Once started, a new check begins within each interval. No assertion fails and at most one connection is open at a time.", "quantifier": "every hash as a service type, every sequence of events (time, readiness, timers) and of answers of socket, connect, send and recv", "why_tests_cant": "The interleavings of timers, partial sends and receives, and errors are unbounded.", "anchors": ["src/plugins/http_status.c:mon_interval_cb", "src/plugins/http_status.c:mon_write_cb", "src/plugins/http_status.c:mon_read_cb", "src/plugins/http_status.c:mon_timeout_cb", "src/plugins/http_status.c:plugin_http_status_add_svctype", "src/plugins/http_status.c:make_req_data", "src/plugins/tcp_connect.c:mon_interval_cb", "src/plugins/tcp_connect.c:mon_connect_cb", "src/plugins/tcp_connect.c:mon_timeout_cb", "src/plugins/tcp_connect.c:plugin_tcp_connect_add_svctype", "src/plugins/mon.c:gdnsd_mon_cfg_stypes_p2", "libgdnsd/vscf.rl:vscf_simple_get_as_ulong"]}
{"id": "C58", "title": "The global options are read as documented and nothing else is accepted", "statement": "Whatever hash the configuration file holds under options: no assertion fails and no memory is misused over it, and the daemon accepts it exactly if every key is a known one and every value is in its range (min_ttl is at most max_ttl and max_ncache_ttl, max_nocookie_response is 0 or at least 128, nsid and nsid_ascii are not both given, addresses can be read, control sockets have a port). Then every option has the value that was written, or its default; each address to listen on has the options written for it, or else the global ones; it gets exactly as many UDP and TCP threads as its options say, and none for UDP with tcp_proxy; the number of descriptors is the sum over the addresses; the CHAOS record and NSID are the bytes of the texts given.", "quantifier": "every tree of values as the configuration (up to 2^20 addresses), every way to read numeric addresses, both values of the -S option", "why_tests_cant": "The options interact (defaults, per-address options, ranges between options), and there is no bound on the number of addresses or the length of texts.", "anchors": ["src/socks.c:socks_conf_load", "src/socks.c:process_listen", "src/socks.c:process_listen_hashentry", "src/socks.c:fill_dns_addrs", "src/socks.c:process_tcp_control", "src/conf.c:conf_load", "src/conf.c:set_chaos", "src/conf.c:set_nsid", "src/conf.c:set_nsid_ascii", "libgdnsd/net.c:gdnsd_anysin_fromstr", "libgdnsd/paths.c:gdnsd_init_paths"]}
{"id": "C59", "title": "The tables of the configuration keep what was put in, in order, and inheritance copies exactly what it should", "statement": "Whatever is added to a hash of the configuration, looked up, marked, sorted and iterated over, in any order: a key that is added is found with its value and place until the end, a second addition of a key is refused and changes nothing, keys and values come in the order of addition (or of the last sort), iteration over unmarked entries visits exactly the entries no lookup has marked, and no memory outside the table is read or written. A copy of a tree has the same keys and values in the same order all the way down. Inheriting one key, or all keys, adds a copy of exactly the values that are missing; handing a key down to all other entries adds a copy to exactly those that are hashes and lack it.", "quantifier": "every hash function, every sequence of fewer than 2^31 operations with any keys and values, every tree that the interface can make", "why_tests_cant": "The table grows and rehashes at sizes that depend on the history, collisions depend on the hash function, and trees have no bound on depth.", "anchors": ["libgdnsd/vscf.rl:hash_add_val", "libgdnsd/vscf.rl:hash_grow", "libgdnsd/vscf.rl:vscf_hash_get_data_bykey", "libgdnsd/vscf.rl:vscf_hash_get_index_bykey", "libgdnsd/vscf.rl:vscf_hash_iterate", "libgdnsd/vscf.rl:vscf_hash_sort", "libgdnsd/vscf.rl:vscf_clone", "libgdnsd/vscf.rl:vscf_hash_inherit", "libgdnsd/vscf.rl:vscf_hash_inherit_all", "libgdnsd/vscf.rl:vscf_hash_bequeath_all", "include/gdnsd/misc.h:count2mask"]}
{"id": "C60", "title": "Loading the directory of zone files: all or nothing, and the same for every order", "statement": "A load of the zones directory looks at exactly the regular files whose names do not start with a dot, each for the zone it is named after (ROOT_ZONE for the root, @ for /). It succeeds exactly when the directory can be read, every such file is a proper zone file for its zone, and no zone is, or lies inside, another; a missing directory is an empty one. Then what is served is what loading each file's records gives, and every later lookup is the same whatever the number of threads, the interleaving of the workers and the order in which the system lists the files. From every point of every schedule the load can be finished. Every zone made on the way ends up in the served data or freed, exactly once; after a success none was freed.", "quantifier": "every directory, every content of the files that does not bring the daemon down by itself (C55), every number of threads, every interleaving of workers and collecting thread, every hash function", "why_tests_cant": "Files are dealt out to threads whose relative speed is not under a test's control; conflicts depend on the order of merging; directories have no bound on their size.", "anchors": ["src/zsrc_rfc1035.c:make_zone_name", "src/zsrc_rfc1035.c:zf_threads_add_zone", "src/zsrc_rfc1035.c:zones_worker", "src/zsrc_rfc1035.c:harvest_zone_worker", "src/zsrc_rfc1035.c:zf_threads_load_zones", "src/zsrc_rfc1035.c:zsrc_rfc1035_load_zones", "src/ltree.c:ltree_new_zone", "src/ltree.c:ltree_merge_zone"]}
{"id": "C61", "title": "Configurations of simplefo, multifo and weighted mean what they say", "statement": "Loading a configuration of simplefo, multifo or weighted either stops with a message or gives exactly the resources the file describes, in its order: a parameter is taken from the innermost stanza that gives it; addresses, names, weights, groups and families are those written; every address or name is watched by exactly the services named (up, if none is), and the same service on the same thing is watched once, whoever asks for it; the threshold is the fraction of the number or the weight, rounded up, one half if none is given; unknown options, wrong families, empty or oversized sets, bad weights and unknown services are refused. No assertion fails, except for a threshold that is not a number and for empty labels in groups. What was loaded before stays. Resources loaded this way can be resolved in every later state (the conditions of the resolver properties hold), and there is room for their addresses in the results.", "quantifier": "every configuration tree with distinct keys and fewer than 2^32 entries per list, every earlier state of the monitors and limits, every later state, every way to read addresses and numbers, every random generator", "why_tests_cant": "Settings may be given on three levels in any combination, in four different shapes of the same data, marks and inherited copies must not leak between them; the data are trees without bound.", "anchors": ["src/plugins/simplefo.c:config_res", "src/plugins/simplefo.c:plugin_simplefo_load_config", "src/plugins/multifo.c:config_auto", "src/plugins/multifo.c:config_addrs", "src/plugins/multifo.c:plugin_multifo_load_config", "src/plugins/weighted.c:config_addrset", "src/plugins/weighted.c:config_cnameset", "src/plugins/weighted.c:config_auto", "src/plugins/weighted.c:plugin_weighted_load_config", "src/plugins/mon.c:mon_thing", "src/plugins/plugapi.c:gdnsd_dyn_addr_max", "libgdnsd/misc.c:gdnsd_uscale_ceil", "libgdnsd/vscf.rl:vscf_simple_get_as_long"]}
{"id": "C62", "title": "Configurations of metafo and geoip mean what they say, and zones can use what they define", "statement": "Loading a configuration of metafo or geoip either stops with a message or gives exactly the resources the file describes, in its order. Each datacenter of the list or map is what the dcmap says: a name to go to, watched by the services named; a resource of another plugin; or a new resource of another plugin, with its own parameters, then those of the resource, then those of the plugin, and the addresses numbered in order. A new resource is added to that plugin's configuration under its own name, nothing there is changed, and an existing one of this name is an error. No datacenter is left out unless this is allowed, each has a state of its own, and for geoip the state of its map's datacenter. A zone can use a resource, or one datacenter of it, if and only if it exists and everything it refers to can be used in this zone, through any number of references; the number a zone keeps says which resource and which datacenter. The search ends unless references form a circle. metafo tries datacenters in the order given.", "quantifier": "every configuration tree with distinct keys, every earlier state of the monitors, every configuration of the other plugins, every set of resources and references between them, every zone", "why_tests_cant": "Parameters come from three levels into configurations of further plugins, marks made for one datacenter must not affect another, and references chain without bound.", "anchors": ["src/plugins/meta_core.inc:make_resource", "src/plugins/meta_core.inc:config_res_perdc", "src/plugins/meta_core.inc:config_res_dcmap", "src/plugins/meta_core.inc:inject_child_plugin_config", "src/plugins/meta_core.inc:map_res_inner", "src/plugins/metafo.c:res_get_mapnum", "src/plugins/metafo.c:map_get_dclist", "src/plugins/geoip.c:top_config_hook", "src/plugins/mon.c:gdnsd_mon_admin", "src/plugins/plugapi.c:gdnsd_plugin_find", "libgdnsd/vscf.rl:vscf_hash_inherit_all"]}
{"id": "C63", "title": "The plugins stanza means what it says, and static, null and reflect answer as documented", "statement": "Loading the service types and the plugins either stops with a message or configures exactly the plugins of the file, each once and with exactly its configuration: geoip first, then metafo, then all others, whose configurations have what geoip and metafo added; a plugin that a service type uses and that has no stanza is configured without one. Every resource that geoip or metafo made for another plugin is a resource of that plugin, and found there. Unknown plugins, entries that are not a hash, service types named up or down or with a plugin that does not monitor, and whatever a plugin refuses stop the start. A service type monitors what its plugin can monitor. static gives the address or the name of its resource, a name only to records that allow it and only outside of the zone; null gives 0.0.0.0 and ::; reflect gives the source address, the address of the client-subnet option or both, as asked for in any letter case, with the option's scope.", "quantifier": "every configuration tree with distinct keys, every order of the plugins in it, every set of service types, every earlier state of the monitors, every resource name, zone, source address and client-subnet option", "why_tests_cant": "What one plugin makes of its configuration changes the configuration of others, so the order of loading and the marks on entries matter for every combination; the data are trees without bound.", "anchors": ["src/conf.c:plugin_configure", "src/conf.c:conf_load", "src/plugins/plugapi.c:gdnsd_plugin_find", "src/plugins/plugapi.c:gdnsd_plugins_configure_all", "src/plugins/mon.c:gdnsd_mon_cfg_stypes_p1", "src/plugins/static.c:plugin_static_load_config", "src/plugins/static.c:plugin_static_map_res", "src/plugins/static.c:plugin_static_resolve", "src/plugins/null.c:plugin_null_resolve", "src/plugins/reflect.c:plugin_reflect_map_res", "src/plugins/reflect.c:plugin_reflect_resolve", "src/plugins/extmon.c:plugin_extmon_load_config"]}
{"id": "C64", "title": "The maps of geoip mean what they say, and clients get the datacenters of their network", "statement": "Loading the maps of geoip either stops with a message or makes exactly the maps the file describes, in their order: the datacenters, from one to 254 and none called auto; the coordinates, of datacenters of the map and on the globe; the limit; the lists of the map of places, each an order of datacenters of the map or auto; and the networks, each an address, a slash and a prefix length that fit together, not inside of a space that stands for IPv4, with a list of datacenters. Nothing else is accepted: no unknown key, no map of places without a database. Loading never runs into undefined behaviour apart from the cases named. After loading a map without a database, every client, with or without a client-subnet option, gets the datacenters of the longest listed network its address is in, in the order written, and all datacenters if it is in none. Places get the lists written for them. A new version of a file of networks replaces the old; if its first error is a network that can not be read, it is only logged.", "quantifier": "every configuration tree, every set of datacenters, coordinates, places and networks, every version of a nets file, every client address and client-subnet option, every sorting function", "why_tests_cant": "The lists are shared and numbered across places, networks and reloads, networks nest and are sorted and merged, and the data are trees without bound.", "anchors": ["libgdmaps/gdmaps.c:gdmap_init", "libgdmaps/gdmaps.c:gdmaps_new", "libgdmaps/gdmaps.c:gdmap_update_nets", "libgdmaps/gdmaps.c:gdmap_initial_load_all", "libgdmaps/gdmaps.c:gdmaps_lookup", "libgdmaps/dcinfo.c:dcinfo_init", "libgdmaps/dcinfo.c:dcinfo_init_auto", "libgdmaps/dclists.c:dclists_xlate_vscf", "libgdmaps/dclists.c:dclists_find_or_add_vscf", "libgdmaps/dcmap.c:dcmap_new", "libgdmaps/nets.c:nets_parse", "libgdmaps/nets.c:nets_make_list"]}
{"id": "C65", "title": "With a GeoIP2 database every client gets the datacenters of its network or of its place", "statement": "A map with a GeoIP2 database is loaded if the database is open, of major version 2, with records of at most 32 bits, for IPv4 or IPv6, and, if datacenters have coordinates, a city database, and the walk through it meets no damage. Then every client, with or without a client-subnet option, gets the list of the longest network of the configuration its address is in, and if it is in none the list for the record the database has for the address: that of its place in the map of places, or the datacenters nearest to the record's coordinates, or the default. Addresses that stand for an IPv4 address get what that IPv4 address gets. An unusable or damaged database stops the start, and while the server runs leaves everything as it was; a new usable database replaces the old for all clients at once, and networks of the configuration keep their lists.", "quantifier": "every map the configuration can describe, every database as seen through libmaxminddb, every set of networks, every client address and client-subnet option, every sorting function", "why_tests_cant": "The database is a graph with shared records that is walked to depth 128 with a cache, its networks are merged with the configured ones, and the lists found are numbered in the order of the walk.", "anchors": ["libgdmaps/gdgeoip2.c:geoip2_new", "libgdmaps/gdgeoip2.c:geoip2_list_xlate_recurse", "libgdmaps/gdgeoip2.c:geoip2_get_dclist_cached", "libgdmaps/gdgeoip2.c:gdgeoip2_make_list", "libgdmaps/gdmaps.c:gdmap_initial_load_all", "libgdmaps/gdmaps.c:gdmap_update_geoip", "libgdmaps/gdmaps.c:gdmap_tree_update", "libgdmaps/gdmaps.c:gdmaps_lookup"]}
{"id": "C66", "title": "The statistics of the DNS layer count what clients see", "statement": "Every request adds to the counters exactly what its outcome is. A request that is answered without truncation, other than a DSO message, adds one to exactly one of noerror, refused, nxdomain, notimp, badvers, formerr and dropped: the one for the code of the response. A truncated response counts as noerror, once, and may also count as refused or nxdomain. A request without answer counts as dropped, and a DSO message that ends its connection as a DSO protocol error. The EDNS counters tell whether request and response have an OPT record and the DO bit; the cookie counters tell whether the response has a cookie, and at most one counts, by what the first cookie of the request is: of a wrong length, good, without a server part, or with a wrong one; every client subnet counts if the option is enabled; the size counters tell truncation, with or without EDNS, and responses of more than 512 bytes over UDP with EDNS; v6 counts clients with IPv6 addresses; sessions count when they are established. Counting changes no response. For any history of requests other than DSO messages the sum of the seven is the number of requests, plus at most the number of truncated responses, and exactly the number of requests over TCP.", "quantifier": "every setting, zone tree and plugin state, every packet of up to 1024 bytes, every state of the connection, every history of requests", "why_tests_cant": "Counters are touched in some thirty places of the code that handles a request, and which of them are passed depends on every byte of it and on the size of the answer; a test sees one path at a time.", "anchors": ["src/dnspacket.h:dnspacket_stats_t", "src/dnspacket.c:handle_edns_cookie", "src/dnspacket.c:handle_edns_option", "src/dnspacket.c:parse_optrr", "src/dnspacket.c:db_lookup", "src/dnspacket.c:answer_from_db", "src/dnspacket.c:handle_dso", "src/dnspacket.c:process_dns_query"]}
{"id": "C67", "title": "gdnsdctl understands its command line, and its exit code tells whether the daemon did what was asked", "statement": "A command line is options, then an action and its arguments; options are letters that may be written together, with an argument in the same word or the next, the last one counts, and a double dash ends them. Exactly such lines are accepted, with a timeout from 5 to 300. The exit code is 0 exactly if, after any number of failures that allow another try, the daemon did what was asked (for stop: it exited; for replace: it exited and another answers), or it is not there, -i was given and the action is one that may be skipped. Every attempt sends the request of the action once. There is no other try after a refusal, with -o, for status, or once the time is over; a refusal exits with 42, wrong usage with 2 and nothing sent, and there are no exit codes but 0, 1, 2 and 42.", "quantifier": "every list of words, every configuration, every history of attempts to reach the daemon", "why_tests_cant": "Lines and histories are without bound; the loop mixes the option, the action, the kind of failure and the alarm, and each combination has its own outcome.", "anchors": ["src/gdnsdctl.c:parse_args", "src/gdnsdctl.c:action_stop", "src/gdnsdctl.c:action_reloadz", "src/gdnsdctl.c:action_replace", "src/gdnsdctl.c:action_status", "src/gdnsdctl.c:action_chal", "src/gdnsdctl.c:can_ignore_dead", "src/gdnsdctl.c:do_action", "src/gdnsdctl.c:main"]}
