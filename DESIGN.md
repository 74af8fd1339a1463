# Formal model of gdnsd: design

The source modelled is the tree in /repo (read as text; nothing of it is built or run here).
The properties are listed in `properties.jsonl`, the theorems that prove them in `MANIFEST.json`.

## 1. Layout

All Coq files live in `rocq/theories`, logical name `Verif`. Each area has

* `XxxModel.v`: the executable model. No proofs. Every definition cites file and lines of /repo, and
  says where it simplifies.
* `XxxSpec.v`: a small specification written without the model's helpers (relations over label lists,
  record lists, histories, ...). This is what to read next to the theorems.
* `XxxProofs*.v`: lemmas.
* `XxxProps.v`: the property theorems `Cnn_...`, their `Print Assumptions`, and a concrete non-trivial
  case for their hypotheses (`Example Cnn_witness...`).

Bytes and machine words are `N` (or `Z` where the C code is signed); lengths, indices and fuel are `nat`.
Machine wrap-around is written explicitly where the code can reach it.
The result type `res` of `Base.v` is `Ok x` or `UB`. `UB` stands for an out-of-bounds access, the use of a
wrong union member, a failed `gdnsd_assert` (in debug builds it aborts, in release builds it is
`__builtin_unreachable()`) and for a loop that uses up its fuel, so a theorem that excludes `UB` also
proves that the fuel suffices.

Names ending in `_refuted` are theorems that show, with a concrete reachable case, that a stronger or more
natural reading of the property is false of the code. They are the findings of section 6.

## 2. Properties, what is modelled, how it is proved

| id | modelled code | files | method |
|----|---------------|-------|--------|
| C01 | dname.c text parser, byte by byte, with its buffers | Dname* | refinement to a grammar of names in text, both directions |
| C02 | printer and parser | Dname* | round trip by induction on labels; refutations for `.`, `\` and the root |
| C03 | dname_cat, isinzone, drop_zone, cmp, iswild, terminate on the byte encoding | Dname* | equivalence with operations on label lists |
| C04 | dname_status_buflen with checked reads | Dname* | induction on remaining bytes |
| C05 | decode_query and all below it with checked reads | Pkt* | totality; decision relation; reading of well-formed messages |
| C06 | the same, and process_dns_query | Pkt*, Msg* | decision rules on whole messages |
| C07 | handle_edns_client_subnet, do_edns_output | Pkt*, Msg* | equivalence with the bit-level rule; echoed bytes |
| C08 | process_dns_query | Msg* | an independent reader of messages (`recs_at`, `counts_right`) |
| C09 | store_dname_comp and its target table | Comp* | invariant over writes; RFC 1035 pointer following as independent spec |
| C10 | shuffle_addrs_rdata and the generator | Rand* | permutation; bijection between draws and orders |
| C11 | gdnsd_rand32_bounded / 64 | Rand* | counting |
| C12 | ltree.c insert / find_or_add_child / find_child, count2mask | Ltree* | Robin-Hood invariant, refinement to a finite map |
| C13 | search_ltree_for_dname | Resp* | refinement to a declarative lookup relation |
| C14 | ltree_add_rec_*, phases 1 and 2 of ltree_postproc_zone | Ltree* | invariant over additions, traversal lemma; `zone_rules` as spec |
| C15 | p1_chase_cname, and the lookup | Ltree* | alias chains as a relation; bound by the loop's counter |
| C16 | cookie.c: keys, rotation, validation; hash and KDF are any functions | Cookie* | window arithmetic over histories of two servers |
| C17–C19 | nlist.c, ntree.c, nets.c, database walk of gdgeoip2.c | Net* | equivalence with longest-prefix match on address bits |
| C20 | dclists_city_auto_map; dcinfo distance | Loc*, LocReal | sorted permutation for any weak order; real analysis for the distance |
| C21–C24 | multifo, weighted, simplefo, metafo/geoip core | Plug* | decision rules for lists of any length; counting |
| C25–C27 | mon.c state machine, admin state, sttl text | Mon* | characterisation by the history of events |
| C28 | sttl_table_update and its readers | Rcu* | transition system, invariant over interleavings |
| C29 | TCP read buffer and framing | Tcp* | refinement to a stream parser |
| C30 | connection queue at pointer level | Connq* | refinement to a list ordered by idleness |
| C31 | process_mmsgs against any kernel | Mmsg* | invariant over kernel answers |
| C32 | proxy.c | Proxy* | soundness and completeness against a grammar of headers |
| C33 | extmon_comms.c and both ends of the pipe | Ext* | round trip for any cutting of the pipe |
| C34 | extfile.c | File* | equivalence with a two-phase spec; composed with Mon* |
| C35 | chal.c with concurrent readers | Chal* | refinement to a set of live challenges, over interleavings |
| C36 | statio.c and the handoff in css.c / csc.c | Stat* | round trip over generations of daemons |
| C37 | ltarena.c | Arena* | invariant over operations |
| C38 | gdmaps.c / dclists.c reload | Maps* | transition system, invariant over interleavings |
| C39 | size limits, truncation, OPT, padding | Msg* | bounds on whole responses; refutations |
| C40 | sqrt_sizet | Isqrt* | loop invariant |
| C41 | state listing of mon.c | Mon* | exact text and size |
| C42, C43 | answer_from_db and encoders | Resp*, Comp* | responses read back as the set of records the rules prescribe |
| C44 | handle_dso | Msg* | decision rules on whole messages |
| C45 | dcmap.c, dclists.c, dcinfo.c | Loc* | equivalence with a declarative walk of the map |
| C46 | extmon_helper.c with libev child watchers | Ext* | transition system |
| C47 | ltree.c as a whole: adding, checking, merging zones | Ltree* | the loaded tree equals a function of the zone's records |
| C48 | phase-1 size check, with the answers of Resp*/Msg* | Ltree*, Msg* | size of any prescribed answer against the check; end to end to "no UB" |
| C49 | css.c, the reloader of main.c, the RCU swap of ltree.c | Ctl* | transition system with the loading thread and queries; invariant over histories |
| C50 | css.c: reading, answering, clean-up of connections | Ctl* | each connection's log is a list of whole exchanges (grammar in CtlSpec) |
| C51 | css.c: permissions, replacement, stop | Ctl* | effects recorded in order, checked against a small rule system |
| C52 | csc.c with the daemon's side of css.c; import of sockets in css.c | Csc*, Ctl* | refinement of what was logged by the daemon; invariant over the list of sockets |
| C53 | csc.c, gdnsdctl's challenge command, with css.c and chal.c's request format | Csc*, Ctl* | what arrives as a function of what the daemon logged; equivalence with a grammar of arguments |
| C54 | zscan_rfc1035.rl as a whole: pre-processing, the Ragel machine, its actions, nested files | Zscan* | three layers, each equivalent to a relation (layout of the text, grammar of lines, meaning of statements); composed by induction over lines and nesting |
| C55 | the same model: outcome UB for failed asserts, fatal allocation and endless nesting | ZscanProofs14-15, Zcrash | what the machine did when it stopped anywhere within a line is the beginning of what some complete line does, or the line begins with a deadly text; induction over lines and nesting |
| C56 | vscf.rl: the Ragel machine, escapes, containers, includes, nested files | Vscf* | two layers, text to tokens and tokens to documents, each an invariant of the machine one way and induction over the grammar the other; induction over nesting |
| C57 | http_status.c, tcp_connect.c: all callbacks, the service types they accept (with mon.c's part) | Opt*, Probe* | invariant over every sequence of events: the history is a list of whole checks and at most one open one; the readers of options are exact both ways |
| C58 | conf.c: conf_load (global options), socks.c: the whole of socks_conf_load, gdnsd_anysin_fromstr, the options read in paths.c | Opt*, Cfg* | each reader is exact both ways against a table of options; the thread list and the sums are followed by induction on the addresses |
| C59 | vscf.rl: the hash table (add, grow, look up, marks, order, sort, iterate), cloning, inherit, inherit_all, bequeath_all; misc.h: count2mask | Vhash* | a table refines the list of its entries under any sequence of operations and any hash function; trees by induction over everything the interface can make |
| C60 | zsrc_rfc1035.c: all; ltree.c: ltree_new_zone; on top of the zone file scanner, the loader and merging | Zdir* | an invariant over every schedule of the workers and the thread that collects them; merging fails exactly for overlapping zones; zones are the same whatever the order |
| C61 | simplefo.c, multifo.c, weighted.c: all of load_config; mon.c: mon_thing; plugapi.c: gdnsd_dyn_addr_max; misc.c: gdnsd_uscale_ceil; vscf.rl: get_as_long | Pconf* | the meaning of a configuration is a function of the file's tree alone (innermost setting, all or nothing); each loader gives exactly that, without a failed assertion, in every state; what it makes meets the conditions of C21, C22, C23 |
| C62 | meta_core.inc, metafo.c, geoip.c: all of load_config and map_res; mon.c: gdnsd_mon_admin; vscf.rl: vscf_hash_inherit_all | Mcf* | the meaning of a configuration is a function of the file's tree and of the configurations of the other plugins; the loader gives exactly that and adds the resources for other plugins; which names zones may use is an inductive relation, equal to the recursive search |
| C63 | conf.c: the plugins stanza; plugapi.c: the table, configure_all; mon.c: stypes_p1; static.c, null.c, reflect.c; extmon.c: load_config | Plc* | the meaning of the whole stanza is a function of the file's tree: geoip, then metafo, each adding to the configurations of others, then the rest; the loader gives exactly that; made resources are found where they were put; the answers of the three small plugins follow by cases |
| C64 | gdmaps.c: gdmap_init, gdmaps_new, update_nets, initial load, lookup; dcinfo.c, dclists.c, dcmap.c, nets.c: reading the configuration | Gmap* | the meaning of a map is a function of the file's tree; the loader gives exactly that, with the data structures of LocModel.v and NetModel.v; C17 and C45 then say what clients and places get; C62 gets the maps it left open |
| C65 | gdgeoip2.c: geoip2_new, geoip2_list_xlate_recurse with the cache, gdgeoip2_make_list; gdmaps.c: initial load and reload with a database | Gdb* | the walk is taken apart into the walk of NetModel.v and the cached records of LocModel.v; the lists found grow, and a list once found stays; C18, C20, C45 and C64 then say what every client gets; libmaxminddb is given by what its calls answer |
| C66 | dnspacket.h: dnspacket_stats_t; dnspacket.c: every stats_own_inc, in decoding, cookies, answers, DSO and process_dns_query | Cnt* | the functions of PktModel.v and MsgModel.v again, with a list of the counters incremented; erasing the list gives those functions (C66_same), so C06-C08, C39, C42 and C44 say what the response is; the counts follow the state that decoding leaves (a record of counts and flags, kept through the options) and the code of the response; which cookie and subnet counters, by induction over the options on the wire (C66_cookie, C66_no_cookie, C66_subnet); histories by induction |
| C67 | gdnsdctl.c: parse_args with getopt, every action, main's loop | Gctl* | a grammar of command lines, equal to the parser both ways; what one attempt to reach the daemon brings is any record; success, going on and stopping by induction over the attempts; the request of a challenge is the one of C53 |

## 3. Trusted base

* The Coq 8.16.1 kernel, including `vm_compute` (used for witnesses and refutations and for finite checks
  over bytes).
* The reading of the C code: the models are written by hand from the source text and are not extracted
  from it nor compared with a running program. The citations in the models are the means of checking.
* The platform assumed: 64-bit little-endian, 8-bit bytes, `size_t` of 64 bits.
* libev, for the health checks (C57), is the few rules at the top of ProbeModel.v: a started watcher may get an event, a
  stopped one loses it, a repeating timer is set again, events are handed out in any order. The answers of socket, connect,
  send and recv are arbitrary.
* The Ragel machines of the zone scanner and of vscf are modelled by hand from Ragel's rules for actions and
  priorities (the generated code is not in the repository). Where two actions of vscf fall on one transition (a string
  directly after another) their order is the parameter `ent_first`.
* getopt is modelled by hand for POSIX mode and gdnsdctl's option string (C67); strcasecmp is that of the C locale.
* What the models take as parameters (any function or any behaviour within the stated contract, so the
  theorems hold for all of them): hash functions (mm3, cookies' keyed hash and KDF), random sources, clocks,
  qsort (any sorting function; an insertion sort for extfile), getaddrinfo for numeric hosts, fnmatch,
  glob and stat, libmaxminddb, kernel answers of sendmmsg/read/write, resolver plugins as seen from the packet code.
* Contracts taken from libraries: liburcu (`synchronize_rcu` returns after every reader that was inside a
  read section has left it; assign/dereference order memory), libev (timers and child watchers as described in
  the models; the 16 buckets for child watchers are from memory of libev, its source is not in the repository).
  The kernel delivers a message that carries sockets in one recvmsg, with the sockets it was sent with.
  Interleaving models are sequentially consistent; C38_loads_out_of_order_refuted is the exception and says so.

### Print Assumptions

Every theorem prints "Closed under the global context", except:

* `C20_great_circle_order`: `ClassicalDedekindReals.sig_not_dec`, `ClassicalDedekindReals.sig_forall_dec`,
  `FunctionalExtensionality.functional_extensionality_dep`, `Classical_Prop.classic`
* `C20_real_order`: `ClassicalDedekindReals.sig_forall_dec`,
  `FunctionalExtensionality.functional_extensionality_dep`

These are the standard library's axioms of real numbers. No other library is used: every file imports only
`Coq.*` and `Verif.*`. There are no axioms, admitted proofs, functors or module types.

## 4. What is modelled and what is not

Modelled (function by function, with citations in the model files):

| source | modelled | not modelled |
|--------|----------|--------------|
| libgdnsd/dname.c, include/gdnsd/dname.h | all | hashing of names |
| include/gdnsd/rand.h, libgdnsd/rand.c | generators, bounded draws | seeding |
| src/dnspacket.c, dnspacket.h | decoding, answering, compression, EDNS, DSO, header, the counters of the DNS layer | thread setup, the atomic operations on counters |
| src/ltree.c, src/ltree.h | tree, hash table, adding, checks, merging | destruction of trees, log texts |
| src/zscan_rfc1035.rl | all | line counts, log texts |
| src/zsrc_rfc1035.c | all | failures of pthread calls, log texts |
| src/ltarena.c | all | contents of blocks |
| src/chal.c, handover in src/main.c | all | |
| src/cookie.c | keys, rotation, validation | file permissions, libsodium |
| src/dnsio_tcp.c | framing, connection queue, isqrt | sockets, statistics, thread start/stop |
| src/dnsio_udp.c | sendmmsg loop | receiving, control messages |
| src/proxy.c | all | |
| src/css.c | connections, requests, takeover, waiting for reloads | start-up, socket calls, log texts |
| src/main.c | reloading thread and its completion, challenge import | command line, start-up, signals other than TERM/INT/USR1 |
| src/csc.c | messages, data and sockets of a transaction, version comparison | connecting, time-outs, log texts |
| src/gdnsdctl.c | all actions, option parsing, retries, exit codes | log texts, the printing of answers, when the alarm is raised |
| src/statio.c | counters, serialisation, handoff, the JSON text | |
| src/plugins/mon.c | state machine, admin state, listing, table update, registration of monitors | |
| src/plugins/multifo.c, weighted.c, simplefo.c | all | log texts |
| src/plugins/meta_core.inc, metafo.c, geoip.c | resolution, configuration, search for resources | log texts |
| src/plugins/extmon*.c | pipe protocol, helper's event handling, load_config | process start-up, exec |
| src/plugins/plugapi.c, static.c, null.c, reflect.c; mon.c: gdnsd_mon_cfg_stypes_p1 | the table of plugins, configuration, search and resolution | static.c and null.c as monitoring plugins; log texts |
| src/plugins/http_status.c, src/plugins/tcp_connect.c | all callbacks with their assertions, service types, the request, the judgement of the answer | socket options, which failures are logged, removed monitors |
| src/plugins/mon.c, service types | thresholds, interval, timeout, unknown options | names of service types |
| src/conf.c, src/socks.c (configuration), libgdnsd/net.c: gdnsd_anysin_fromstr | the global options, addresses, threads, control sockets, the order of plugins | making sockets |
| src/plugins/extfile.c | reading, applying, timing | its own use of vscf |
| libgdnsd/vscf.rl | the scanner, escapes, includes, what a file holds, access to values, the hash table behind a hash, clone, inherit, bequeath | destroy, error texts, parents |
| libgdmaps/* | nets, nlist, ntree, dclists, dcmap, dcinfo with their configuration, gdmaps reload, database checks and walk, databases and networks together | MMDB decoding (libmaxminddb), a build without libmaxminddb, floating-point rounding |

Not modelled at all: logging, how paths are made from directories, daemonisation, socket setup.

Simplifications that recur: log messages are dropped (a fatal one is the outcome "refused"); memory
allocation does not fail; names in the zone tree are label lists (C03 relates them to the bytes);
counters are left out of PktModel.v and MsgModel.v and kept in CntModel.v (C66).

## 5. Testing the theorems against wrong programs

`seeded/LOG.jsonl` has one line per wrong program: the definition edited, the edit, the claim it breaks,
the theorems that failed and the theorems tightened. The edits are made in a scratch copy and everything is
rebuilt with `make -k`. `theorems_failed` names the lemmas and theorems whose proof broke, and the property
theorems of that claim which can no longer be built because a file they import broke. An entry whose list is
empty is a wrong program that went unnoticed; its `theorems_tightened` or `note` says what was done.

## 6. Findings

Proved, with a concrete case (`_refuted` theorems or stated in the theorem):

* C02: a label containing `.` or `\` is printed so that it does not parse back; the root name prints as "".
* C04: `VALID` is returned for names with labels of 64 to 254 bytes.
* C16: a key file cut short (crash during the first write) is never replaced; cookies then use a short key file's error path for ever.
* C17: a network that is shadowed after v4 translation silently sends clients to another list.
* C20: a default list that omits a datacenter makes the automatic ordering read past its end.
* C24: naming a datacenter a resource lacks gives an empty answer that counts as up.
* C27: the TTL part of a state accepts what strtoul accepts: signs, white space, wrap-around.
* C32: a text PROXY line of more than 106 bytes before CR LF violates the assertion at proxy.c:93.
* C33: commands of 65536 bytes or more are sent with a truncated length; a 3-byte payload is refused.
* C34: an entry whose name has capital letters never matches.
* C35: handed-over challenges can outlive their time; the limit per bucket is 201, not CHAL_COLLIDE_SANITY_MAX.
* C36: the length check of statio_deserialize tests `dlen & 4U`: messages of 1 to 3 bytes are read out of bounds.
* C37: an allocation after the arena is closed overflows it.
* C38: the two loads of a map reader are unordered; out of order they give an index outside the list table.
* C39: the assertion on the predicted OPT size fails for duplicate NSID options, duplicate subnet options, and an
  unknown EDNS version over TCP outside DSO; a CHAOS answer can have 538 bytes over UDP without EDNS; truncated
  responses can exceed max_nocookie_response.
* C43: whether an alias is followed depends on the letter case of the question.
* C45: database names of 128 bytes or more overflow a stack buffer; lists of 256 names overflow a table.
* C46: a killed child reaped late makes every later check of its monitor fail; a helper held up for longer than
  an interval violates an assertion.
* C48: challenges are written up to the size limit without leaving room for the OPT record: with enough of them
  and large TXT data at one name a TCP query overruns the response buffer.

* C49: a replacement found dead while zones are being loaded resets the wait lists although the loading thread runs on;
  the next reload starts a second thread. A client is then told of success and later served older data, or the old
  tree is destroyed twice.
* C50: TAK1 sent twice with the same PID, TAK1 with PID 0, and a STOP by the new daemon whose answer cannot be sent
  while gdnsdctl waits for the replacement, each violate an assertion.

* Zone files that bring the daemon down instead of being refused (C55_never_kills_refuted,
  C55_endless_include_refuted, C55_empty_file_kills): an empty file (gdnsd_assert in scanner); `""` as the name in NS, CNAME,
  PTR, MX, SRV, NAPTR, SOA, $ORIGIN or as $INCLUDE's origin (gdnsd_assert in dname_set) or as $INCLUDE's file name
  (gdnsd_assert in dns_unescape); `TYPEn \# 0` with a blank after it, and any length that is 0 modulo 2^32 (xmalloc(0) is
  fatal); a file that includes itself (no limit on the recursion). C55_only_these_files_kill shows that there are no others.

* Configuration files (C56): a value that is an include of an empty directory is passed over, its key stays pending, and the
  next include without a key - even one in an outer hash - is stored under that key instead of being merged
  (C56_included_entries_stay_in_their_hash_refuted); a file that includes itself, or the directory it is in, recurses without
  limit (C56_include_depth_is_bounded_refuted); names of included files are not unescaped although the manual says so
  (C56_include_names_are_unescaped_refuted); `[a"b"]`, `["a""b"]` and `{a="b"c=d}` bring the process down if Ragel puts entering
  actions before leaving ones (C56_touching_strings_are_read_refuted). A comment on the last line without a newline is refused.

* Configurations of plugins (C61): `up_thresh = nan` passes both comparisons of multifo and weighted and then fails the
  assertion in gdnsd_uscale_ceil (C61_nan_refuted); an empty label in a group of weighted addresses fails an assertion in
  config_addr_group_addr (C61_empty_label_refuted). addr_eq of mon.c ignores the scope of IPv6 addresses.
* Configurations of metafo and geoip (C62): a datacenter written `!res` makes a later one of the same resource that is
  a hash forget the resource's plugin: it becomes one of multifo (C62_plugin_lost_refuted). `%metafo` in metafo (or
  `%geoip` in geoip) without a resource compares a null pointer (C62_no_name_refuted). skip_first with a list
  (C62_skip_refuted; the same for ignore_ecs of geoip) and a plugin whose configuration is not a hash
  (C62_not_hash_refuted) fail assertions. Keys of a dcmap that are equal up to a null byte leave a datacenter
  without anything (C62_nul_refuted). From 256 datacenters on metafo tries the first 255 only (C62_order_refuted);
  `res/dc` is refused for datacenters from number 128 on and fails an assertion for number 256 (C62_far_refuted).
  References in a circle fill the stack when a zone uses them (C62_circle_refuted).
* The plugins stanza (C63): a service type of the plugin static needs a stanza for that plugin, although an empty one will do
  and null and extmon need none (C63_static_monitor_refuted). A resource that metafo makes for geoip is lost, and zones
  that use it are refused (C63_geoip_child_refuted); without a geoip stanza, geoip would be configured with that alone.
* The maps of geoip (C64): a value of ignore_ecs that is not a string fails an assertion (C64_ignore_refuted). A new version of
  a nets file with the name of an unknown datacenter ends the running server, while one with a network that can not be read is
  only logged (C64_reload_refuted, C64_update). An empty list of datacenters is accepted although the message says one or
  more, and clients of that network get no datacenter at all (C64_empty_list_refuted). Coordinates that are not a number are
  accepted, and that datacenter is never the nearest (C64_nan_refuted). Two datacenters of one name are accepted, and the second
  can not be reached by name (C64_two_refuted).
* A map with a database (C65): the manual (docs/gdnsd-plugin-geoip.podin:238-240) says that without the stanza `map` "you just
  get the default behavior", but with geoip2_db and without auto_dc_coords the server then never starts, whatever the database
  (C65_missing_map_refuted). The manual's first example, my_auto_map with GeoIP2-Country.mmdb and auto_dc_coords, is refused,
  because a country database has no coordinates (C65_country_witness, C65_unusable).
* Counters (C66): src/dnspacket.h:62-66 calls the sum of seven counters the number of requests. A truncated response with an
  error code counts twice, once for the code and once as noerror, and DSO messages over TCP count in none (C66_sum_refuted).
  Line 88 there says that every request with a cookie counts as exactly one of four; one with a faulty option before the cookie
  does not. edns_clientsub is called a part of edns, but a request with two client subnets counts twice (C66_cookie_refuted).
  The relations that hold are C66_answered, C66_dropped, C66_dso and C66_history.
* gdnsd_plugin_find ends the program if there is no such plugin: a zone file with DYNA or DYNC and an unknown plugin
  ends the daemon, also on reload, and the zone's error message "not loaded" is never reached
  (C62_no_plugin_refuted for references of metafo and geoip; find_resource in LtreeModel.v has a refusal of the zone
  there, so the theorems on zones are about zones that name existing plugins).
* Tables of the configuration (C59): vscf_hash_bequeath_all hands a value that is itself a hash down to itself as well, and
  later entries get the changed value, although vscf.h says all other children (C59_only_to_others_refuted); keys with a null
  byte are cut short by vscf_hash_inherit_all, as vscf.h warns (C59_all_inherited_refuted).
* Global options (C58): `tcp_proxy` compares the port in network order with 53, so it is accepted on port 53 and refused on
  port 13568 (C58_proxy_not_on_port_53_refuted, C58_proxy_on_other_ports_refuted); text after `[address]` other than `:port`
  is ignored (C58_odd_address_refused_refuted); chaos_response defaults to `gdnsd/3`, not `gdnsd`
  (C58_chaos_default_refuted); numbers are read with base 0 and a sign, so `010000` is 4096 and -18446744073709551612 is 4
  (C58_odd_numbers_refuted); the per-address option tcp_backlog is not in the manual.
* gdnsdctl (C67): text after the number of `-t` is ignored, so `-t '7 days'` is 7 seconds (C67_timeout_refuted); actions and
  their arguments are checked only once a connection is made, so `gdnsdctl -i stop now` without a daemon succeeds
  (C67_usage_refuted).
* Health checks (C57): http_status does not notice that the server closed the connection early: it reads nothing again and
  again, without pause, until the time is over (C57_closed_connection_is_noticed_refuted); the byte after the code is not
  looked at (`HTTP/1.1 2009` is a 200, C57_code_ends_with_space_refuted), but it has to be there; tcp_connect reports nothing
  when socket() fails, so an address that was never checked stays up (C57_tcp_always_reports_refuted); a list within ok_codes
  trips an assertion (C57_odd_codes_refused_refuted); the default timeout can be 1800 although 300 (255 in the manual) is the
  greatest that can be written (C57_timeout_at_most_300_refuted).

Readings of zone files that may surprise (C54 states them as they are, in ZscanSpec.v):

* numbers are taken modulo 2^32 (refused only from 2^64 on), and a unit of time wraps again: `TTL 4294967297` is 1;
* `foo TXT` followed by two blanks or a comment is a TXT record without strings;
* a blank or comment after `$INCLUDE file` is refused unless an origin follows; two blanks after the length of a
  `TYPEn \# len` record are refused;
* in an included file a line without owner belongs to the zone's apex, not to the origin given;
* a least TTL of 0 (`60/0 DYNA`) means half the TTL; the texts of DYNA and DYNC are not unescaped and end, as file
  names do, at a zero byte; types and lengths of generic records are not limited to 16 bits.

Seen while reading, not proved here:

* csc_txn reports a soft failure after a short read of the 8-byte answer although the daemon may have acted;
  socks_import_fd leaves a socket with an oversized address open if errno happens to be EBADF; gdnsdctl strips the
  prefix `_acme-challenge.` only in lower case.

* `TYPE65537`-style types in zone files: ltree_add_rec_rfc3597 compares the whole number but keeps 16 bits; the
  same for the lengths of such data and of NAPTR texts. (The theorems of C14, C15, C47, C48 assume types and lengths
  below 65536, as `rec_fine` says.)
* A zone in which a name has both an alias and name servers and is the target of another alias can meet
  `gdnsd_assert(0)` in p1_rrset_size before the clean refusal.
* count2mask_sz without a clz builtin assigns to a const argument (does not compile).
* ltree_proc_inner's 32-bit slot counter never ends for a node with 2^31 children or more.
* PROXY v1 UNKNOWN and v2 PROXY with family UNSPEC are refused; TCP4/TCP6 is not compared with the addresses.
* "nan" passes the range checks of coordinates and thresholds.
* The JSON state listing does not escape service descriptions.
* css.c: handle_req_tak2/take close the connection right after queueing a FAIL answer, which is then never sent;
  TAK1 with PID 0xFFFFFFFF makes the daemon signal every process it may signal.
* One query may read two zone trees: a chain of aliases dereferences the tree's root once per name.
