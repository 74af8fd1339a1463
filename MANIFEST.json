{
 "claims": [
  {
   "property": "C01",
   "status": "proved",
   "theorems": [
    "C01_from_string_exact",
    "C01_text_is_unambiguous"
   ],
   "note": "Exact for every text up to any length; also memory safety of the 256-byte output and 252-byte label buffer."
  },
  {
   "property": "C02",
   "status": "proved",
   "theorems": [
    "C02_print_parse_round_trip",
    "C02_print_in_bounds",
    "C02_round_trip_any_label_refuted",
    "C02_root_prints_empty_refuted"
   ],
   "note": "Round trip for labels without '.' and '\\\\'; the unrestricted version and the root name are refuted (findings)."
  },
  {
   "property": "C03",
   "status": "proved",
   "theorems": [
    "C03_cat_appends_labels",
    "C03_isinzone_is_label_suffix",
    "C03_drop_zone_removes_the_suffix",
    "C03_drop_then_cat_restores",
    "C03_cmp_is_equality",
    "C03_iswild_is_star_first",
    "C03_terminate_qualifies"
   ],
   "note": "cat, isinzone, drop_zone, cmp, iswild, terminate over label lists."
  },
  {
   "property": "C04",
   "status": "proved",
   "theorems": [
    "C04_status_of_arbitrary_bytes",
    "C04_valid_means_legal_refuted"
   ],
   "note": "Exact on every buffer; VALID does not imply labels of at most 63 bytes (refuted, finding)."
  },
  {
   "property": "C05",
   "status": "proved",
   "theorems": [
    "C05_decode_total",
    "C05_decision",
    "C05_standard_message"
   ],
   "note": "query decoding: no out-of-bounds access, decision for every packet, reading of well-formed messages"
  },
  {
   "property": "C06",
   "status": "proved",
   "theorems": [
    "C06_no_response_to_responses",
    "C06_responses_are_marked",
    "C06_not_a_query_is_dropped",
    "C06_what_is_dropped"
   ],
   "note": "Whole-message model: responses and short packets are dropped, and every response carries the response bit."
  },
  {
   "property": "C07",
   "status": "proved",
   "theorems": [
    "C07_subnet_echoed",
    "C07_client_subnet_exact",
    "C07_bad_subnet_is_refused"
   ],
   "note": "Validation is exact for every payload; the echoed option is proved on the bytes of the response."
  },
  {
   "property": "C08",
   "status": "proved",
   "theorems": [
    "C08_header_and_counts",
    "C08_standard_query_is_answered"
   ],
   "note": "Whole responses, for every packet without duplicate NSID/subnet options and without an unknown EDNS version over TCP (those trip the size assertion, see the refuted theorems of C39)."
  },
  {
   "property": "C09",
   "status": "proved",
   "theorems": [
    "C09_names_read_back",
    "C09_names_read_back_exactly",
    "C09_reading_is_unambiguous",
    "C09_zone_part_found"
   ],
   "note": "Compression writer as used by the record encoders; reading follows RFC 1035 pointers strictly backwards."
  },
  {
   "property": "C10",
   "status": "proved",
   "theorems": [
    "C10_shuffle_permutes",
    "C10_every_order_occurs",
    "C10_orders_are_equally_likely",
    "C10_generator_draws_are_legal"
   ],
   "note": "Shuffle of an answer set: permutation, every order reachable, orders equally likely given uniform draws."
  },
  {
   "property": "C11",
   "status": "proved",
   "theorems": [
    "C11_bounded_in_range",
    "C11_exactly_uniform",
    "C11_rejected_count",
    "C11_retry",
    "C11_bound_zero"
   ],
   "note": "Bounded random numbers: in range and exactly uniform given a uniform 64-bit/32-bit source."
  },
  {
   "property": "C12",
   "status": "proved",
   "theorems": [
    "C12_child_table_is_a_map"
   ],
   "note": "Any hash function with 64-bit values, any sequence of additions (fewer than 2^62). src/ltree.c ltree_node_insert, find_or_add_child, ltree.h find_child and count2mask are modelled with Robin-Hood displacement, early exit and growth."
  },
  {
   "property": "C13",
   "status": "proved",
   "theorems": [
    "C13_lookup_follows_tree_rules",
    "C13_outcomes_exclusive"
   ],
   "note": "The tree search yields the right one of four mutually exclusive outcomes, for every well-formed tree; children are an association list here (the hash table is C12)."
  },
  {
   "property": "C14",
   "status": "proved",
   "theorems": [
    "C14_loaded_zone_keeps_the_rules"
   ],
   "note": "For every list of records the zone-file parser can give, every plugin set and hash function: if loading succeeds, the records meet zone_rules of LtreeSpec.v (written without any function of the model)."
  },
  {
   "property": "C15",
   "status": "proved",
   "theorems": [
    "C15_alias_chains_end"
   ],
   "note": "For every set of zones the loader accepts (model of the phases of ltree postproc), every chain of aliases met from any question name has at most 16 links, so every question has a response by the lookup rules and its alias chain is at most 16 long."
  },
  {
   "property": "C16",
   "status": "proved",
   "theorems": [
    "C16_validity",
    "C16_issued_cookies_accepted",
    "C16_key_survives_restart",
    "C16_configured_key",
    "C16_short_key_file_refuted"
   ],
   "note": "The keyed hash and the key derivation are arbitrary functions; clocks of the two servers are inputs. C16_short_key_file_refuted: a key file cut short by a crash is never replaced."
  },
  {
   "property": "C17",
   "status": "proved",
   "theorems": [
    "C17_longest_network_wins",
    "C17_bad_networks_refused",
    "C17_shadowed_network_refuted"
   ],
   "note": "Whole path from parsed network list to client lookup (append, sort, normalise, tree, v4 translation). qsort is any sorting function. A shadowed network breaks the claim: refuted theorem with a concrete configuration."
  },
  {
   "property": "C18",
   "status": "proved",
   "theorems": [
    "C18_networks_override_database",
    "C18_broken_database"
   ],
   "note": "Database walk, merge and lookup; the database is any total read function; MMDB byte decoding is not modelled. Reload without the restart path."
  },
  {
   "property": "C19",
   "status": "proved",
   "theorems": [
    "C19_scope_covers_equal_answers"
   ],
   "note": "Scope of ntree_lookup for every loaded map. Scope reset by several datacenters in the geoip plugin is not covered here."
  },
  {
   "property": "C20",
   "status": "proved",
   "theorems": [
    "C20_nearest_first",
    "C20_great_circle_order",
    "C20_real_order",
    "C20_short_default_refuted"
   ],
   "note": "For every strict weak order of distances; over the reals the code's haversine value orders places by great-circle distance (uses the axioms of the standard library's real numbers). Floating-point rounding is not modelled. A default list that omits a datacenter makes the code read past it (C20_short_default_refuted)."
  },
  {
   "property": "C21",
   "status": "proved",
   "theorems": [
    "C21_multifo",
    "C21_addresses"
   ],
   "note": "Resolution only: configuration parsing and the threshold's floating point are not modelled (the threshold is a parameter, at least 1)."
  },
  {
   "property": "C22",
   "status": "proved",
   "theorems": [
    "C22_weighted",
    "C22_never_empty",
    "C22_only_eligible",
    "C22_no_repeats",
    "C22_share",
    "C22_cname"
   ],
   "note": "Groups and ungrouped addresses in both modes, CNAME mode; draws are an oracle below their bound (C11), the threshold scaling a parameter between 1 and its argument."
  },
  {
   "property": "C23",
   "status": "proved",
   "theorems": [
    "C23_simplefo"
   ],
   "note": "All three rows of the state chart, both families."
  },
  {
   "property": "C24",
   "status": "proved",
   "theorems": [
    "C24_datacenter",
    "C24_first",
    "C24_answers_something_refuted"
   ],
   "note": "Datacenter choice over any sub-plugin; C24_answers_something_refuted: naming a datacenter the resource lacks gives an empty answer that counts as up. The map's list for the client is C17-C20."
  },
  {
   "property": "C25",
   "status": "proved",
   "theorems": [
    "C25_state_follows_thresholds"
   ],
   "note": "Whole-history theorem over the mon.c model: thresholds and TTL = interval x fewest results to change."
  },
  {
   "property": "C26",
   "status": "proved",
   "theorems": [
    "C26_admin_state_is_authoritative",
    "C26_invalid_file_changes_nothing",
    "C26_effective_state_reaches_resolvers",
    "C26_real_states_are_undisturbed"
   ],
   "note": "fnmatch is an oracle; vscf parsing of the file is outside (a file is a list of pattern/value pairs or broken)."
  },
  {
   "property": "C27",
   "status": "proved",
   "theorems": [
    "C27_parse_exact",
    "C27_strict_text_accepted",
    "C27_only_strict_text_refuted",
    "C27_combination_exact"
   ],
   "note": "strtoul's lenience (signs, white space, wrap-around) is part of the accepted grammar; the strict reading is refuted by C27_only_strict_text_refuted."
  },
  {
   "property": "C28",
   "status": "proved",
   "theorems": [
    "C28_readers_see_one_published_table",
    "C28_no_write_to_a_table_being_read",
    "C28_held_table_is_stable",
    "C28_after_grace_period_newest",
    "C28_publication_is_complete",
    "C28_grace_period_ends"
   ],
   "note": "Interleaving model with single-element accesses; synchronize_rcu's contract and sequential consistency trusted."
  },
  {
   "property": "C29",
   "status": "proved",
   "theorems": [
    "C29_requests_are_the_frames",
    "C29_segmentation_independent",
    "C29_framing_is_unique",
    "C29_progress"
   ],
   "note": "TCP request framing; proxy_parse and response success are oracles."
  },
  {
   "property": "C30",
   "status": "proved",
   "theorems": [
    "C30_queue_refines_spec",
    "C30_load_kill_is_most_idle",
    "C30_timeout_closes_exactly_the_idle"
   ],
   "note": "Connection list at pointer level refines a list ordered by idle time."
  },
  {
   "property": "C31",
   "status": "proved",
   "theorems": [
    "C31_each_response_once",
    "C31_transmit_set"
   ],
   "note": "sendmmsg loop, kernel answers as an oracle within the documented contract."
  },
  {
   "property": "C32",
   "status": "proved",
   "theorems": [
    "C32_stays_within_received_bytes",
    "C32_accepts_only_headers",
    "C32_accepts_every_header",
    "C32_no_half_header",
    "C32_requests_follow_the_header",
    "C32_long_line_refuted"
   ],
   "note": "getaddrinfo with AI_NUMERICHOST is a parameter of the model. Text lines of at most 106 bytes before CR LF; C32_long_line_refuted: a longer one violates the assertion at proxy.c:93."
  },
  {
   "property": "C33",
   "status": "proved",
   "theorems": [
    "C33_round_trip",
    "C33_nothing_misread",
    "C33_failed_write",
    "C33_all_commands",
    "C33_long_command_refuted",
    "C33_short_command_refuted"
   ],
   "note": "Every cutting of the pipe into reads and writes. C33_long_command_refuted and C33_short_command_refuted: the daemon sends commands the format cannot hold without checking."
  },
  {
   "property": "C34",
   "status": "proved",
   "theorems": [
    "C34_every_resource_gets_its_state",
    "C34_one_state_per_resource",
    "C34_bad_file_changes_nothing",
    "C34_direct_states_follow_the_file",
    "C34_default_state",
    "C34_read_when_settled",
    "C34_spelling_refuted"
   ],
   "note": "Composed with the model of the monitoring core for direct mode; in monitor mode each read is one result per resource, to which C25 applies. Names of the resources of one service type are taken to be distinct and file keys are distinct (vscf). qsort and bsearch are modelled by an insertion sort and a binary search. C34_spelling_refuted: an entry with a capital letter is never matched."
  },
  {
   "property": "C35",
   "status": "proved",
   "theorems": [
    "C35_served_exactly",
    "C35_at_most_201",
    "C35_available",
    "C35_gone_in_time",
    "C35_flush_removes_all",
    "C35_one_view_per_query",
    "C35_nothing_leaks",
    "C35_main_thread_gets_on",
    "C35_few_are_never_refused",
    "C35_handed_over",
    "C35_handed_over_expiry_refuted"
   ],
   "note": "The hash function is arbitrary. RCU is modelled by its guarantee: synchronize_rcu returns once every thread inside a read section when it was called has left it. Times are milliseconds of the wall clock; expiry in time is proved for clocks that do not go back. Addresses are never reused by the model's allocator. How the records found are put into a packet is part of C08/C42. C35_handed_over_expiry_refuted: sets taken over may outlive their time because the first timer is set to the full acme_challenge_ttl. C35_limit_reached: the bucket limit is 201 although CHAL_COLLIDE_SANITY_MAX is 200."
  },
  {
   "property": "C36",
   "status": "proved",
   "theorems": [
    "C36_totals_survive_replacement",
    "C36_other_versions",
    "C36_failed_handoff",
    "C36_bad_length_refuted"
   ],
   "note": "64-bit little-endian machine. A read of a counter of a running thread is one value. C36_bad_length_refuted: messages of 1 to 3 bytes are read out of bounds."
  },
  {
   "property": "C37",
   "status": "proved",
   "theorems": [
    "C37_blocks_apart",
    "C37_nothing_leaks",
    "C37_blocks_stay",
    "C37_malloc_after_close_refuted"
   ],
   "note": "Pools are numbered; contents of blocks are not modelled. Pointer-size overflow of the pool array is not modelled."
  },
  {
   "property": "C38",
   "status": "proved",
   "theorems": [
    "C38_readers_see_whole_updates",
    "C38_good_reload_takes_effect",
    "C38_old_data_is_freed",
    "C38_no_update_without_load",
    "C38_loads_out_of_order_refuted"
   ],
   "note": "Every interleaving of loads, updates and readers, sequentially consistent; synchronize_rcu is modelled by its contract; the tree lookup itself is abstract here (any lookup that decides by network, see C17/C18). C38_loads_out_of_order_refuted: reordered loads give an out-of-range list index."
  },
  {
   "property": "C39",
   "status": "proved",
   "theorems": [
    "C39_udp_maximum",
    "C39_udp_client_size",
    "C39_truncation",
    "C39_fits_buffer",
    "C39_padding",
    "C39_limit_without_cookie_refuted",
    "C39_chaos_fits_512_refuted",
    "C39_size_prediction_refuted",
    "C39_size_prediction_subnet_refuted",
    "C39_size_prediction_version_refuted"
   ],
   "note": "Limits, truncation, buffer and padding; the CHAOS exception, the limit for clients without a cookie and the predicted OPT size are refuted (findings)."
  },
  {
   "property": "C40",
   "status": "proved",
   "theorems": [
    "C40_integer_sqrt",
    "C40_churn_at_least_four"
   ],
   "note": "Integer square root used for the connection cache size."
  },
  {
   "property": "C41",
   "status": "proved",
   "theorems": [
    "C41_listing_complete_and_in_bounds"
   ],
   "note": "Sizes as unbounded naturals."
  },
  {
   "property": "C42",
   "status": "proved",
   "theorems": [
    "C42_answer_is_the_zone_data"
   ],
   "note": "Aliases not followed (the default). Size precondition: the reply fits the 16382-byte buffer; truncation and EDNS are C39."
  },
  {
   "property": "C43",
   "status": "proved",
   "theorems": [
    "C43_aliases_are_followed",
    "C43_aliases_for_any_case_refuted"
   ],
   "note": "Lower-case questions; the statement for any letter case is refuted (finding)."
  },
  {
   "property": "C44",
   "status": "proved",
   "theorems": [
    "C44_dso_request",
    "C44_session_only_by_keepalive"
   ],
   "note": "handle_dso and its framing; the TCP layer's use of the session flag is outside."
  },
  {
   "property": "C45",
   "status": "proved",
   "theorems": [
    "C45_places_get_their_list",
    "C45_no_map_all_automatic",
    "C45_long_name_refuted",
    "C45_long_list_refuted"
   ],
   "note": "libmaxminddb is an oracle: each path in an entry is a string, absent or broken. Names of 128 bytes or more in the database and lists of 256 names in the configuration overflow fixed buffers (refuted)."
  },
  {
   "property": "C46",
   "status": "proved",
   "theorems": [
    "C46_results_once_and_in_order",
    "C46_nothing_stays_behind",
    "C46_one_result_per_check",
    "C46_limit_kept",
    "C46_stuck_child_refuted",
    "C46_late_timers_refuted"
   ],
   "note": "libev child watchers are modelled by their hash buckets (16, from memory of libev: its source is not in the repository). C46_stuck_child_refuted: a killed child reaped late makes every later check of the monitor fail. C46_late_timers_refuted: a helper held up past an interval violates an assertion."
  },
  {
   "property": "C47",
   "status": "proved",
   "theorems": [
    "C47_served_data_is_the_zone_files"
   ],
   "note": "The tree after loading all zones, seen without its hash tables, holds for every legal name exactly what the zones' records say; lookups in the hash tables agree with it."
  },
  {
   "property": "C48",
   "status": "proved",
   "theorems": [
    "C48_answers_leave_room",
    "C48_loaded_server_fits",
    "C48_loaded_server_never_fails",
    "C48_with_challenges_refuted"
   ],
   "note": "C48_with_challenges_refuted shows the exception: with 201 challenges and 5070 bytes of TXT data at one name a TCP query overruns the buffer. Without challenges the claim is proved for every packet the OPT size prediction copes with (see C39)."
  },
  {
   "property": "C49",
   "status": "proved",
   "theorems": [
    "C49_reload_answers",
    "C49_waiting_clients",
    "C49_data_in_use",
    "C49_newer",
    "C49_reload_answers_refuted"
   ],
   "note": "Assumes that no replacement daemon is found dead while a load of the zones runs (calm); C49_reload_answers_refuted shows a stale success and a double free without it. Time is the number of events so far."
  },
  {
   "property": "C50",
   "status": "proved",
   "theorems": [
    "C50_conversations",
    "C50_not_stuck",
    "C50_never_fails",
    "C50_never_fails_refuted"
   ],
   "note": "C50_never_fails assumes what new daemons do (polite); C50_never_fails_refuted has three protocol violations that fail assertions."
  },
  {
   "property": "C51",
   "status": "proved",
   "theorems": [
    "C51_only_permitted",
    "C51_local_only",
    "C51_takeover_rules",
    "C51_resumes",
    "C51_leaves_the_new_daemon_alone"
   ],
   "note": "Effects are recorded by the model where the code carries them out."
  },
  {
   "property": "C52",
   "status": "proved",
   "theorems": [
    "C52_sockets_arrive",
    "C52_each_socket_once",
    "C52_counts",
    "C52_same_configuration",
    "C52_only_whole_lists",
    "C52_hands_on",
    "C52_version"
   ],
   "note": "The kernel hands over each message with sockets as it was sent; sockets are named by identity, not by number."
  },
  {
   "property": "C53",
   "status": "proved",
   "theorems": [
    "C53_text",
    "C53_sent",
    "C53_challenges",
    "C53_challenges_reach_daemon"
   ],
   "note": "The first 8 bytes of an answer come in one piece (csc_txn treats a shorter first read as a failure). Arguments of gdnsdctl come in pairs."
  },
  {
   "property": "C54",
   "status": "proved",
   "theorems": [
    "C54_files_are_read_as_written",
    "C54_one_meaning",
    "C54_room_is_enough",
    "C54_served_data_is_the_text"
   ],
   "note": "The Ragel machine is modelled by hand as a lexer that gives the actions in order. Files do not change during a load; inet_pton is a parameter. Files nested deeper than the given depth are a separate outcome (the C stack ends)."
  },
  {
   "property": "C55",
   "status": "proved",
   "theorems": [
    "C55_only_these_files_kill",
    "C55_read_or_refused",
    "C55_empty_file_kills",
    "C55_never_kills_refuted",
    "C55_endless_include_refuted"
   ],
   "note": "Proved with the exceptions named in the statement; the _refuted theorems show that each exception does bring the process down. The name of the zone file must have a slash in it (the daemon always passes full paths)."
  },
  {
   "property": "C56",
   "status": "proved",
   "theorems": [
    "C56_files_are_read_as_written",
    "C56_one_reading",
    "C56_refused_files_hold_nothing",
    "C56_scanning_ends_well",
    "C56_keys_are_distinct",
    "C56_all_data_can_be_written",
    "C56_include_depth_is_bounded_refuted",
    "C56_included_entries_stay_in_their_hash_refuted",
    "C56_touching_strings_are_read_refuted",
    "C56_include_names_are_unescaped_refuted"
   ],
   "note": "The Ragel machine is modelled by hand as a transition function on bytes. The order of two actions on one transition (strings next to each other) could not be looked up without Ragel and is a parameter; the theorems hold for both orders. glob and stat are parameters; files do not change during the scan. The _refuted theorems show a lost key (include of an empty directory), endless includes, and include names that are not unescaped."
  },
  {
   "property": "C57",
   "status": "proved",
   "theorems": [
    "C57_http_service_type",
    "C57_tcp_service_type",
    "C57_odd_codes_refused_refuted",
    "C57_timeout_at_most_300_refuted",
    "C57_http_history",
    "C57_http_ends_in_time",
    "C57_http_goes_on",
    "C57_tcp_history",
    "C57_tcp_ends_in_time",
    "C57_tcp_goes_on",
    "C57_closed_connection_is_noticed_refuted",
    "C57_code_ends_with_space_refuted",
    "C57_tcp_always_reports_refuted"
   ],
   "note": "One address at a time; time in whole ticks; libev's rules are those at the top of ProbeModel.v. Reporting once fails for tcp_connect when socket() fails (it then reports nothing); tcp_check says so and C57_tcp_always_reports_refuted shows it. The other _refuted theorems show an early close that is not noticed, a byte that is not looked at, an assertion on nested ok_codes, and a default timeout above the maximum."
  },
  {
   "property": "C58",
   "status": "proved",
   "theorems": [
    "C58_options",
    "C58_threads",
    "C58_names_unique",
    "C58_proxy_not_on_port_53_refuted",
    "C58_proxy_on_other_ports_refuted",
    "C58_chaos_default_refuted",
    "C58_odd_address_refused_refuted",
    "C58_odd_numbers_refuted"
   ],
   "note": "getaddrinfo for numeric hosts and ports is a parameter; directories are not made, service types and plugins are left out (C57 has the former). Fewer than 2^20 addresses. The _refuted theorems show where the code and the manual differ: tcp_proxy on port 53 is accepted (and on 13568 refused), text after a bracket is ignored, another default for chaos_response, octal and negative numbers."
  },
  {
   "property": "C59",
   "status": "proved",
   "theorems": [
    "C59_table",
    "C59_copy",
    "C59_inherit",
    "C59_inherit_all",
    "C59_bequeath",
    "C59_only_to_others_refuted",
    "C59_all_inherited_refuted"
   ],
   "note": "For every hash function; qsort is any permutation; fewer than 2^31 entries. Memory is not freed in the model and allocation does not fail. C59_bequeath describes the result when the value handed down is not itself a hash, or marked entries are skipped and it is marked; C59_only_to_others_refuted shows what happens otherwise. C59_inherit_all needs keys without null bytes; C59_all_inherited_refuted shows why."
  },
  {
   "property": "C60",
   "status": "proved",
   "theorems": [
    "C60_load_is_the_directory",
    "C60_load_ends",
    "C60_order_does_not_matter",
    "C60_no_zone_is_lost",
    "C60_one_zone_per_file",
    "C60_zone_made"
   ],
   "note": "Workers share nothing and files do not change during a load, so one file is one step; pthread calls do not fail. For files that do not bring the daemon down by themselves (C55 says which do) and that fit in memory. The theorems quantify over all schedules; C60_load_ends says that no schedule is a dead end."
  },
  {
   "property": "C61",
   "status": "proved",
   "theorems": [
    "C61_hand_down",
    "C61_simplefo",
    "C61_multifo",
    "C61_weighted",
    "C61_names",
    "C61_shared",
    "C61_resource",
    "C61_threshold",
    "C61_half",
    "C61_weight",
    "C61_simplefo_serves",
    "C61_multifo_serves",
    "C61_weighted_serves",
    "C61_nan_refuted",
    "C61_empty_label_refuted"
   ],
   "note": "getaddrinfo and strtod are given functions; the product of gdnsd_uscale_ceil is rounded to 53 bits as a double is. Configuration data are the trees with marks that C59 shows the hash tables to be. C61_nan_refuted and C61_empty_label_refuted are findings; the other theorems exclude just these."
  },
  {
   "property": "C62",
   "status": "proved",
   "theorems": [
    "C62_load",
    "C62_children",
    "C62_resources",
    "C62_shared",
    "C62_data",
    "C62_addresses",
    "C62_all_defined",
    "C62_fits",
    "C62_usable",
    "C62_stack",
    "C62_ends",
    "C62_number",
    "C62_order",
    "C62_plugin_lost_refuted",
    "C62_no_name_refuted",
    "C62_skip_refuted",
    "C62_not_hash_refuted",
    "C62_nul_refuted",
    "C62_order_refuted",
    "C62_far_refuted",
    "C62_circle_refuted",
    "C62_no_plugin_refuted"
   ],
   "note": "getaddrinfo and the reading of maps are given functions; a given function says whether another plugin accepts a resource. Configuration data are the trees with marks that C59 shows the hash tables to be. The theorems C62_..._refuted are findings; C62_load excludes just what they show (plain, safe, all_steady, open_confs), and C62_ends excludes circles and 256 or more datacenters."
  },
  {
   "property": "C63",
   "status": "proved",
   "theorems": [
    "C63_types",
    "C63_monitored",
    "C63_table",
    "C63_services",
    "C63_all",
    "C63_load",
    "C63_absent",
    "C63_not_hash",
    "C63_no_stanza",
    "C63_child",
    "C63_plugins",
    "C63_offers",
    "C63_child_used",
    "C63_static",
    "C63_null",
    "C63_reflect",
    "C63_static_monitor_refuted",
    "C63_geoip_child_refuted"
   ],
   "note": "getaddrinfo, strtod and the reading of maps are given functions. Configuration data are the trees with marks that C59 shows the hash tables to be. C63_load excludes what C61 and C62 show to go wrong (tidy, tidy_later), also for what geoip leaves to metafo and both to multifo; entries that are no hash are the subject of C63_not_hash. The theorems C63_..._refuted are findings."
  },
  {
   "property": "C64",
   "status": "proved",
   "theorems": [
    "C64_map",
    "C64_maps",
    "C64_geoip",
    "C64_some_center",
    "C64_keys",
    "C64_geoip_load",
    "C64_slash",
    "C64_lookup",
    "C64_places",
    "C64_update",
    "C64_ignore_refuted",
    "C64_reload_refuted",
    "C64_empty_list_refuted",
    "C64_nan_refuted",
    "C64_two_refuted"
   ],
   "note": "getaddrinfo (which gives whole addresses), strtod and qsort are given functions; paths are kept as written. Configuration data are the trees with marks that C59 shows the hash tables to be. 'sane' excludes what C64_ignore_refuted and C45_long_list_refuted show to go wrong, and coordinates of one datacenter given two times up to a null byte. C64_lookup has the conditions of C17 on the networks (agreed, all_reached, at most about 132000 of them). The theorems C64_..._refuted are findings."
  },
  {
   "property": "C65",
   "status": "proved",
   "theorems": [
    "C65_usable",
    "C65_unusable",
    "C65_without_database",
    "C65_lookup",
    "C65_reload",
    "C65_broken",
    "C65_missing_map_refuted"
   ],
   "note": "libmaxminddb is given by what its calls answer (any nodes, any entries); getaddrinfo, strtod, the sorting function and the distance are given too. C65_lookup and C65_reload are about usable databases without damage, networks that agree and are reached (C64), databases and networks of up to about 132000 networks (the width of tree nodes, C17), and, with coordinates, a default list that orders all datacenters (see the findings of C45). C65_broken is about nodes that can not be read; entries of a wrong type are in C45. C65_missing_map_refuted is a finding: without coordinates and without a map of places the server does not start, although the manual says it does."
  },
  {
   "property": "C66",
   "status": "proved",
   "theorems": [
    "C66_cookie",
    "C66_no_cookie",
    "C66_subnet",
    "C66_same",
    "C66_answered",
    "C66_not_a_request",
    "C66_dropped",
    "C66_session",
    "C66_dso",
    "C66_history",
    "C66_edns",
    "C66_sum_refuted",
    "C66_cookie_refuted"
   ],
   "note": "C66_answered, C66_history: for well-formed settings (wf_server), packets of up to 1024 bytes without the OPT records that MsgSpec.tame excludes, and answers that leave room for the OPT record (fits), as in C08. C66_same, C66_session, C66_not_a_request and C66_dropped need none of that. C66_sum_refuted and C66_cookie_refuted are findings: three comments in dnspacket.h do not hold. C66_edns, C66_cookie, C66_no_cookie and C66_subnet: for messages with one question and at most one OPT record (std_msg)."
  },
  {
   "property": "C67",
   "status": "proved",
   "theorems": [
    "C67_unreachable",
    "C67_failed",
    "C67_bad_challenges",
    "C67_command_line",
    "C67_timeout",
    "C67_success",
    "C67_running",
    "C67_challenges",
    "C67_refused",
    "C67_stops",
    "C67_usage",
    "C67_exit_codes",
    "C67_timeout_refuted",
    "C67_usage_refuted"
   ],
   "note": "What the transactions of one attempt bring (a connection, an accepted, soft or hard answer, the exit of the old daemon, a new one that answers, the alarm) is any record; the transactions themselves are in C53. C67_challenges: for arguments that make a request (C53_challenges says which). C67_timeout_refuted and C67_usage_refuted are findings: text after the timeout is ignored, and arguments are not checked when there is no daemon."
  }
 ]
}