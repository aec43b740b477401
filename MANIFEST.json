{
 "claims": [
  {
   "property": "C01",
   "status": "proved",
   "theorems": [
    "c01_check_safe_sound",
    "c01_check_complete",
    "c01_encoding_unique"
   ],
   "note": "wire_check: safety, termination, soundness, completeness and uniqueness over all memories and offsets."
  },
  {
   "property": "C02",
   "status": "proved",
   "theorems": [
    "c02_unpack_after_check"
   ],
   "note": "unpack and realsize agree with wire_check for every buffer size."
  },
  {
   "property": "C03",
   "status": "proved",
   "theorems": [
    "c03_to_str",
    "c03_to_str_buffer",
    "c03_from_str_exact",
    "c03_from_str_buffer",
    "c03_from_str_buffer_enough",
    "c03_round_trip",
    "c03_to_str_injective"
   ],
   "note": "exact characterisation of from_str, round trip, text bound; with a caller's buffer the code writes a second zero byte for the root."
  },
  {
   "property": "C04",
   "status": "partial",
   "theorems": [
    "c04_cmp_canonical_partial",
    "c04_canonical_total_order",
    "c04_cmp_preorder",
    "c04_cmp_canonical_refuted",
    "c04_with_null_exact"
   ],
   "note": "canonical order proved for labels without zero bytes; c04_cmp_canonical_refuted shows two different names with NUL bytes comparing equal; preorder laws hold for all legal names."
  },
  {
   "property": "C05",
   "status": "partial",
   "theorems": [
    "c05_in_bailiwick",
    "c05_matched_labels",
    "c05_common_suffix_len_meaning",
    "c05_labels",
    "c05_replace_suffix_partial",
    "c05_replace_suffix_refuted",
    "c05_replace_suffix_overlong_refuted"
   ],
   "note": "bailiwick, matched labels and label counts proved; replace_suffix fails when the replaced suffix is the whole name and does not limit the result to 255 bytes (refutations)."
  },
  {
   "property": "C06",
   "status": "proved",
   "theorems": [
    "c06_to_lower",
    "c06_to_lower_idempotent",
    "c06_to_lower_legal",
    "c06_case_equal",
    "c06_equal"
   ],
   "note": ""
  },
  {
   "property": "C07",
   "status": "proved",
   "theorems": [
    "c07_init",
    "c07_at",
    "c07_canonical_form",
    "c07_add",
    "c07_add_order_irrelevant",
    "c07_member",
    "c07_eq",
    "c07_subset",
    "c07_merge",
    "c07_intersect",
    "c07_intersect2",
    "c07_subtract",
    "c07_remove",
    "c07_copy"
   ],
   "note": "set semantics of every operation by refinement to finite sets of octet strings; canonical form unique, so insertion order is irrelevant."
  },
  {
   "property": "C08",
   "status": "partial",
   "theorems": [
    "c08_history",
    "c08_limits",
    "c08_merge_failure_partial",
    "c08_merge_failure_refuted",
    "c08_remove_failure_refuted"
   ],
   "note": "memory safety, exact counters and canonical form for every history of operations; failure atomicity holds for add and copy, is refuted for merge (partial merge) and for removals whose shrinking realloc fails (corrupted set)."
  },
  {
   "property": "C09",
   "status": "proved",
   "theorems": [
    "c09_names_round_trip"
   ],
   "note": "Names written one after another by compr_put_dname, starting with QNAME as the suffix (as pkt.c does); every name is found by the check and unpacked to the same name up to case, through strictly backward 14-bit pointers. For whole messages (owners, names in RDATA, hints, rotation) see c10_message_round_trip and c12_message_partial."
  },
  {
   "property": "C10",
   "status": "proved",
   "theorems": [
    "c10_plain_round_trip",
    "c10_message_round_trip"
   ],
   "note": "Without compression the RRset is read back exactly (c10_plain_round_trip); with compression a message filled by any allowed history of calls is read back record by record in the canonical form of the parser (letters lowercased in names of RDATA as RFC 4034 says). Allowed histories exclude two cases refuted for C12."
  },
  {
   "property": "C11",
   "status": "proved",
   "theorems": [
    "c11_parse_safe",
    "c11_parse_complete"
   ],
   "note": "For every message, position, and allocation failure; complete as well. The layouts of all types are compared with a separate table."
  },
  {
   "property": "C12",
   "status": "partial",
   "theorems": [
    "c12_new",
    "c12_init_response",
    "c12_message_partial",
    "c12_put_partial",
    "c12_other_calls_partial",
    "c12_failed_put_refuted",
    "c12_reserve_question_refuted"
   ],
   "note": "For every allowed history of knot_pkt_begin, put_question, reserve, reclaim and put_rotate, with any failures of allocation. Not covered: putting an RRset with a non-root owner after a failed put, and the question after a reservation; for both the property is false (c12_failed_put_refuted, c12_reserve_question_refuted). Wrong hints given by the caller are excluded."
  },
  {
   "property": "C13",
   "status": "proved",
   "theorems": [
    "c13_parse_sound",
    "c13_parse_complete",
    "c13_message_unique"
   ],
   "note": "Proved on the model of knot_pkt_parse: for every content of memory, size up to 65535, flags and failures of allocation parsing is safe and bounded, and success means that the octets are the returned message; every message is parsed. Octets behind the last field of RDATA are tolerated as found in C14, so soundness uses the tolerant form of a record."
  },
  {
   "property": "C14",
   "status": "partial",
   "theorems": [
    "c14_rdlength_refuted",
    "c14_rdlength_partial"
   ],
   "note": "False in general: octets behind a compressed name are ignored (c14_rdlength_refuted). Partial: the fields lie within RDLENGTH, the position advances by RDLENGTH, and the number of ignored octets is bounded by the expansion."
  },
  {
   "property": "C15",
   "status": "partial",
   "theorems": [
    "c15_check_partial",
    "c15_outcome_unique",
    "c15_sound_partial",
    "c15_sound",
    "c15_sign",
    "c15_sign_next",
    "c15_window",
    "c15_tamper",
    "c15_stream_sound",
    "c15_stream_complete",
    "c15_answer",
    "c15_request",
    "c15_algorithm_refuted",
    "c15_defined_refuted",
    "c15_sign_next_refuted"
   ],
   "note": "The digested data, the record written and the accepted streams are computed for all messages, keys and MAC functions. The check follows the algorithm of the record and not that of the key, so the full statement is refuted where nothing else compares them (c15_algorithm_refuted, c15_defined_refuted); c15_sound holds where the algorithms agree, as the ACL ensures in the server. Not modelled: knot_tsig_add, the parse that finds the record."
  },
  {
   "property": "C16",
   "status": "proved",
   "theorems": [
    "c16_compare_defined",
    "c16_compare_rfc1982",
    "c16_compare_antisym",
    "c16_masks",
    "c16_add_greater"
   ],
   "note": ""
  },
  {
   "property": "C17",
   "status": "partial",
   "theorems": [
    "c17_next_greater_no_modulo",
    "c17_next_congruent",
    "c17_next_defined_partial",
    "c17_next_increment_greater",
    "c17_next_greater_partial",
    "c17_next_defined_refuted",
    "c17_modulus_256_refuted",
    "c17_next_greater_refuted"
   ],
   "note": "greater than current proved without congruence; with a congruence the assert can fail near 2^32 and the result may be not greater (refutations with witnesses)."
  },
  {
   "property": "C18",
   "status": "proved",
   "theorems": [
    "c18_round_trip",
    "c18_stored",
    "c18_rrsets",
    "c18_too_large_refuted",
    "c18_corrupt_refuted"
   ],
   "note": "Any limits for which no piece is too large, and the limits of the journal without that hypothesis; any contents of fresh memory; also any sequence of RRsets (zone in journal, zone difference) with the section of each. Order of keys in the database is C53."
  },
  {
   "property": "C19",
   "status": "partial",
   "theorems": [
    "c19_sem_check_partial",
    "c19_contiguous_partial",
    "c19_no_crash_partial",
    "c19_extra_refuted",
    "c19_assertion_refuted"
   ],
   "note": "Proved over all histories of insert, zone insert, flush and scrape, with failures of LMDB and reading. The histories are limited by allowed (no replacement of the zone or return of the serial while space has to be made, see the refutations), and memory allocation does not fail"
  },
  {
   "property": "C20",
   "status": "partial",
   "theorems": [
    "c20_one_commit",
    "c20_loadable_partial",
    "c20_crash_points_partial",
    "c20_returned_partial",
    "c20_discontinuity_refuted",
    "c20_merge_unreadable_refuted",
    "c20_no_memory_refuted"
   ],
   "note": "c20_one_commit is unconditional: at most one state committed, errors other than KNOT_EBUSY change nothing. That the zone can be loaded at every crash point is proved for the allowed histories; the refutations show the others. Durability is that of LMDB (C53 covers the wrapper)"
  },
  {
   "property": "C21",
   "status": "partial",
   "theorems": [
    "c21_ends",
    "c21_zone_ends",
    "c21_contiguous_partial",
    "c21_serial_wrap_refuted"
   ],
   "note": "Termination and that a gap is never silently skipped hold for every database (c21_ends); contiguity up to the last serial for the allowed histories"
  },
  {
   "property": "C22",
   "status": "partial",
   "theorems": [
    "c22_depth_partial",
    "c22_nothing_lost_partial",
    "c22_forced_flush_refuted",
    "c22_flush_deletes_merged_refuted",
    "c22_depth_one_refuted"
   ],
   "note": "Depth limit and preservation of unflushed changes for the allowed histories; the usage limit isn't a theorem, because the occupied space is an input of the model"
  },
  {
   "property": "C23",
   "status": "partial",
   "theorems": [
    "c23_exact",
    "c23_left_out",
    "c23_disjoint",
    "c23_outcome",
    "c23_soa_refuted",
    "c23_rrsig_ttl_refuted"
   ],
   "note": "Proved with or without the types to be left out. Signature TTLs are excluded (refuted), equal serials with another SOA too (refuted). RRsets close to 4 GiB are excluded and the result may be an error for lack of space."
  },
  {
   "property": "C24",
   "status": "partial",
   "theorems": [
    "c24_compose",
    "c24_disjoint",
    "c24_rrsig_ttl_refuted",
    "c24_disjoint_refuted"
   ],
   "note": "c24_compose, c24_disjoint: full for changesets that apply strictly one after another and carry the TTLs of the RRsets they touch (natural for changesets made by the server). TTLs of RRSIGs are not preserved (refuted). Size limits (4 GiB of RDATA, 65535 records) give an error. Node sharing is not modelled."
  },
  {
   "property": "C25",
   "status": "partial",
   "theorems": [
    "c25_missing",
    "c25_already",
    "c25_applied",
    "c25_only",
    "c25_rollback_partial"
   ],
   "note": "Zones, record by record: strict application refuses a removal of a record that is not there and an addition of one that is there, and otherwise the result is the zone minus the removals plus the additions. Rollback is proved on the node level (C57); the copy-on-write trie around the nodes is not modelled."
  },
  {
   "property": "C26",
   "status": "partial",
   "theorems": [
    "c26_prereqs",
    "c26_iff",
    "c26_any_refuted",
    "c26_tree_refuted"
   ],
   "note": "Exact result and RCODE of any prerequisite section against RFC 2136 section 3.2 (c26_prereqs, c26_iff). Missing: names with both a normal and an NSEC3 node (c26_tree_refuted) and type ANY with the zone class, which aborts the server (c26_any_refuted); sections of 60000 records and more."
  },
  {
   "property": "C27",
   "status": "proved",
   "theorems": [
    "c27_soa",
    "c27_ns",
    "c27_cname",
    "c27_single",
    "c27_serial",
    "c27_soa_apex",
    "c27_total",
    "c27_delete_rr",
    "c27_delete_rrset",
    "c27_delete_name",
    "c27_add",
    "c27_add_at_cname",
    "c27_add_replaces",
    "c27_add_cname",
    "c27_add_soa",
    "c27_dname_refuted",
    "c27_nsec3param_refuted",
    "c27_ttl_refuted"
   ],
   "note": "For all sequences of requests: SOA and NS of the apex stay, no CNAME gets company, single CNAME/DNAME/NSEC3PARAM stay single, the serial never decreases; exact effects of every operation. The refuted theorems show deviations from RFC 2136 outside of the property."
  },
  {
   "property": "C28",
   "status": "proved",
   "theorems": [
    "c28_first_match",
    "c28_default_deny",
    "c28_key",
    "c28_unlisted_key",
    "c28_remotes",
    "c28_check",
    "c28_relative_null_refuted"
   ],
   "note": "For every list of rules, action and request from an IP address: c28_first_match (the first rule that concerns the request decides, stated with a declarative 'applies'), c28_default_deny, c28_key (the key used is a listed one with the name and algorithm of the request), c28_unlisted_key, c28_remotes (automatic rules of primaries and secondaries, exact), c28_check (their combination). Configured names must be well formed; c28_relative_null_refuted shows that a relative owner name ending with a zero byte is read behind its end. IPv4 address ranges keep the behaviour shown in C54."
  },
  {
   "property": "C29",
   "status": "proved",
   "theorems": [
    "c29_get",
    "c29_insert",
    "c29_delete",
    "c29_listing_unique",
    "c29_weight",
    "c29_iterate",
    "c29_navigate",
    "c29_walk_from",
    "c29_it_delete",
    "c29_apply",
    "c29_longest_key_refuted",
    "c29_nosuffix_refuted"
   ],
   "note": "Full functional correctness over all histories of inserts, deletes and iterator operations, with any failures of allocation. Keys are shorter than 2^31 bytes; the case of exactly 2^31 bytes and trie_it_next_nosuffix (unused) are refuted. trie_dup, trie_get_try_wildcard are not modelled."
  },
  {
   "property": "C30",
   "status": "proved",
   "theorems": [
    "c30_get_leq",
    "c30_it_get_leq",
    "c30_unique"
   ],
   "note": "For every history and key."
  },
  {
   "property": "C31",
   "status": "proved",
   "theorems": [
    "c31_isolation",
    "c31_get",
    "c31_start",
    "c31_commit",
    "c31_rollback",
    "c31_insert",
    "c31_delete",
    "c31_idle_ops",
    "c31_no_leak",
    "c31_no_leak_open"
   ],
   "note": "All histories of insertions, stores, deletions, transactions, commits and rollbacks, with any failing allocations, on an explicit heap: lookups in the old version are unchanged, commit leaves the new map, rollback the old one; no call touches freed memory; every live object belongs to a version, so nothing leaks. Calls are atomic; callbacks (NULL in knot) are not modelled."
  },
  {
   "property": "C32",
   "status": "proved",
   "theorems": [
    "c32_contains",
    "c32_contains_safe",
    "c32_build",
    "c32_set"
   ],
   "note": "Build, size, canonical form and lookup for every list of types; lookup safe and exact on every byte string."
  },
  {
   "property": "C33",
   "status": "proved",
   "theorems": [
    "c33_create",
    "c33_cycle",
    "c33_fix",
    "c33_history",
    "c33_history_goes_on",
    "c33_check_sound",
    "c33_check_complete",
    "c33_check_fix_partial",
    "c33_check_fix_local",
    "c33_check_fix_refuted",
    "c33_check_fix_ent_refuted",
    "c33_fix_orphan_refuted",
    "c33_create_two_records_refuted"
   ],
   "note": "Creation makes one closed cycle in canonical order on every zone; fixing after any listed change gives the records creation would give; by induction every zone of a signing server has a closed chain; full validation accepts only valid chains and accepts the chains made. Assumed: the changed nodes are listed, NSEC was not edited by hand (otherwise the chain is recreated, which is modelled), no left-over signatures at emptied nodes. Refuted: incremental validation misses some broken chains; two NSEC records at a node make creation fail. NSEC3 is not modelled."
  },
  {
   "property": "C34",
   "status": "partial",
   "theorems": [
    "c34_timeval_in",
    "c34_head_is_minimal",
    "c34_delmin",
    "c34_insert",
    "c34_delete",
    "c34_replace",
    "c34_histories",
    "c34_cancel_race_refuted",
    "c34_alloc_failure_refuted"
   ],
   "note": "Proved for every history of schedule, cancel and delivery turns (up to 2^28 operations, below the int overflow of the array size) and for each heap operation with any comparison. Refuted: evsched_cancel racing with evsched_schedule, and a failing realloc."
  },
  {
   "property": "C35",
   "status": "proved",
   "theorems": [
    "c35_one_at_a_time",
    "c35_earliest",
    "c35_not_lost",
    "c35_woken",
    "c35_on_time",
    "c35_frozen",
    "c35_freeze_wait",
    "c35_frozen_unarmed",
    "c35_not_early_refuted",
    "c35_far_plan_early_refuted",
    "c35_freeze_wait_refuted"
   ],
   "note": "Every interleaving of the regions of events.c (locks as steps). A planned event is not lost, the earliest allowed starts, one at a time, wake-ups not lost/late, frozen zones start nothing. Refuted: events never start before their time; the blocking freeze always returns. Blocking calls other than the freeze and allocation failures in the scheduler are not modelled."
  },
  {
   "property": "C36",
   "status": "partial",
   "theorems": [
    "c36_read_any_partial",
    "c36_read_terminates_refuted",
    "c36_unknown",
    "c36_write_all",
    "c36_round_trip_partial",
    "c36_round_trip_refuted",
    "c36_absent",
    "c36_old_format",
    "c36_sweep",
    "c36_serial_notified"
   ],
   "note": "Full statement fails for a record cut inside the master address (endless loop, refuted) and for a pin without an address (refuted); everything else proved."
  },
  {
   "property": "C37",
   "status": "partial",
   "theorems": [
    "c37_ordered",
    "c37_removed_after_retired",
    "c37_states",
    "c37_no_ub",
    "c37_run_keeps_keys",
    "c37_confirm_keeps_keys",
    "c37_signed_partial",
    "c37_keys_remain_partial",
    "c37_signed_refuted",
    "c37_algorithms_refuted",
    "c37_waits",
    "c37_new_waits_partial",
    "c37_ksk_stays",
    "c37_waits_refuted"
   ],
   "note": "Order of times, removal only after retirement, no failing assertion, no key lost, and the delays before every change of a key (c37_waits) are proved for all histories of runs (any policies and failures), confirmations and time. That the zone stays signed is proved if a KSK rollover is forced only while the policy still has the algorithm and scheme of the KSKs in use; without this it is refuted (c37_signed_refuted). Delays hold if their 32-bit sums do not wrap (c37_waits_refuted otherwise). Not modelled: shared KSKs, keys edited by hand, offline KSK."
  },
  {
   "property": "C38",
   "status": "partial",
   "theorems": [
    "c38_sync_partial",
    "c38_no_error_partial",
    "c38_changes_partial",
    "c38_no_steal_partial",
    "c38_cancel",
    "c38_unique",
    "c38_error",
    "c38_atomic",
    "c38_steal_refuted",
    "c38_stale_refuted",
    "c38_crash_refuted",
    "c38_group_lost_refuted",
    "c38_replaced_refuted",
    "c38_configured_refuted"
   ],
   "note": "Proved for all histories of changes, replacements and commits of catalog zones which do not list the same zone: after processing, a zone is a member of exactly the catalog that lists it, and nothing fails. With conflicts: a member is not stolen unless another catalog sets a group of it. Adding and removing cancels, the commit is atomic. The full statement is refuted by conflicting claims (six histories). Missing: groups over replacements, generated catalogs."
  },
  {
   "property": "C39",
   "status": "partial",
   "theorems": [
    "c39_unchanged",
    "c39_kinds",
    "c39_wellformed",
    "c39_incremental",
    "c39_full",
    "c39_accepts_incremental",
    "c39_accepts_full",
    "c39_uptodate",
    "c39_chain_refuted"
   ],
   "note": "Soundness and completeness of incoming IXFR and AXFR against the grammar, for every message sequence; a transfer that does not end well leaves the zone. Chaining of the serials is refuted (c39_chain_refuted): the code does not check it without signing. Signing, ixfr-from-axfr and fallbacks are not modelled."
  },
  {
   "property": "C40",
   "status": "proved",
   "theorems": [
    "c40_ends"
   ],
   "note": "for every packet behaviour; histories without NSEC3 nodes at the wildcard below the apex (see c58_nsec3_wildcard_refuted)"
  },
  {
   "property": "C41",
   "status": "proved",
   "theorems": [
    "c41_roundtrip",
    "c41_complete",
    "c41_send",
    "c41_too_long_refuted",
    "c41_repeat_refuted"
   ],
   "note": "For all sequences of units, all segmentations of the stream on both sides, all buffer sizes: what is received up to the first error is a prefix of what was sent, and everything is received if no system call fails. The refuted theorems show what happens after an error."
  },
  {
   "property": "C42",
   "status": "partial",
   "theorems": [
    "c42_round_trip_partial",
    "c42_number_value",
    "c42_number_only",
    "c42_number_data",
    "c42_name_value",
    "c42_bool_value",
    "c42_option_value",
    "c42_string_value",
    "c42_address_value",
    "c42_address_port_value",
    "c42_network_value",
    "c42_network_mask_value",
    "c42_network_range_value",
    "c42_hex_value",
    "c42_hex_refused",
    "c42_hex_plain_value",
    "c42_base64_value",
    "c42_hex_round_trip_refuted",
    "c42_hex_unreadable_refuted",
    "c42_number_defined_refuted",
    "c42_zero_in_string_refuted"
   ],
   "note": "Every text accepted for a legal item gives data which are printed as exactly one text (given the units asked for), and that text gives the same data (c42_round_trip_partial), for all kinds of values but YP_TDATA and through references. Exception, with counterexamples: printable hexadecimal data beginning with 0x; texts with zeros inside. The values are also stated against a specification of the texts: numbers with units and range errors, names, booleans, options, addresses with ports, networks, hexadecimal and base64 data. Least 64-bit number with a unit: undefined behaviour, refuted."
  },
  {
   "property": "C43",
   "status": "partial",
   "theorems": [
    "c43_encode",
    "c43_decode_complete",
    "c43_round_trip",
    "c43_decode_safe",
    "c43_decode_sound_partial",
    "c43_padding_inside_refuted"
   ],
   "note": "Encoder, decoder completeness, round trip and memory safety proved in full; soundness of acceptance proved when '=' occurs only in the last two places, refuted in general (padding inside is accepted)."
  },
  {
   "property": "C44",
   "status": "partial",
   "theorems": [
    "c44_encode",
    "c44_decode_complete",
    "c44_round_trip",
    "c44_order",
    "c44_decode_safe",
    "c44_decode_sound_partial",
    "c44_padding_inside_refuted"
   ],
   "note": "Encoder, order preservation, round trip, completeness and safety in full; acceptance soundness when '=' occurs only in the last six places, refuted in general."
  },
  {
   "property": "C45",
   "status": "partial",
   "theorems": [
    "c45_encode",
    "c45_decode_complete",
    "c45_round_trip",
    "c45_decode_safe_partial",
    "c45_decode_safe_refuted",
    "c45_reads_behind_refuted",
    "c45_decode_sound_partial"
   ],
   "note": "Encoder, round trip, completeness in full; memory safety and soundness need a readable (zero) byte behind the input, refuted without it."
  },
  {
   "property": "C46",
   "status": "partial",
   "theorems": [
    "c46_kept",
    "c46_expires_partial",
    "c46_expires_zero_refuted",
    "c46_expires_wrap_refuted"
   ],
   "note": "Kept while young, for every history; expiry proved for clocks that did not wrap since the report; two refuted cases."
  },
  {
   "property": "C47",
   "status": "proved",
   "theorems": [
    "c47_expire",
    "c47_deinit",
    "c47_get",
    "c47_put",
    "c47_history"
   ],
   "note": "Every history conserves the connections; get, put, expiry and deallocation characterised."
  },
  {
   "property": "C48",
   "status": "partial",
   "theorems": [
    "c48_safe",
    "c48_error_sticky",
    "c48_error_reads_zero",
    "c48_write",
    "c48_read",
    "c48_read_past_end",
    "c48_round_trip",
    "c48_copy",
    "c48_copy_fails",
    "c48_printf_partial",
    "c48_printf_safe",
    "c48_printf_truncated_refuted",
    "c48_printf_ignores_error_refuted",
    "c48_skip_min_refuted"
   ],
   "note": "Reads, writes, seeks, copies and round trip proved in full. Formatted printing is safe, exact when the text is shorter than the room; refuted for a text exactly as long as the room, after an error, and for read-only contexts."
  },
  {
   "property": "C49",
   "status": "partial",
   "theorems": [
    "c49_unique",
    "c49_get",
    "c49_get_next",
    "c49_data",
    "c49_options",
    "c49_add",
    "c49_add_get",
    "c49_add_overflow_refuted",
    "c49_add_nomem_refuted",
    "c49_set_ext_rcode",
    "c49_set_version",
    "c49_set_do",
    "c49_init",
    "c49_padding",
    "c49_ecs_write",
    "c49_ecs_write_invalid",
    "c49_ecs_parse",
    "c49_ecs_round_trip",
    "c49_ecs_get_addr",
    "c49_ecs_set_addr",
    "c49_keepalive",
    "c49_keepalive_parse",
    "c49_cookie_round_trip",
    "c49_cookie_parse",
    "c49_cookie_invalid"
   ],
   "note": "Lookup, option table, option data and adding proved for every RDATA; TTL fields, padding, client subnet, keepalive and cookie options too. Adding past 64 KiB and a failed allocation are refuted."
  },
  {
   "property": "C50",
   "status": "partial",
   "theorems": [
    "c50_client",
    "c50_server",
    "c50_lifetime_partial",
    "c50_wrap_refuted",
    "c50_version"
   ],
   "note": "Exact acceptance conditions of client and server cookies for an arbitrary hash function; the lifetime theorem excludes clock values near the 32-bit wrap, where the claim is false (c50_wrap_refuted)."
  },
  {
   "property": "C51",
   "status": "partial",
   "theorems": [
    "c51_offset",
    "c51_safe",
    "c51_strip4",
    "c51_strip6",
    "c51_denied",
    "c51_write4",
    "c51_write6",
    "c51_tcp_refuted",
    "c51_address_from_message_refuted"
   ],
   "note": "Exact characterisation of the accepted headers, memory safety for all datagrams, address and payload for IPv4 and IPv6 datagram headers, write/read round trip. False in general: header without address block (c51_address_from_message_refuted), stream headers (c51_tcp_refuted)."
  },
  {
   "property": "C52",
   "status": "partial",
   "theorems": [
    "c52_unique",
    "c52_nonempty",
    "c52_count",
    "c52_add",
    "c52_lookup",
    "c52_remove",
    "c52_remove_type",
    "c52_history",
    "c52_nomem_refuted",
    "c52_add_empty_refuted"
   ],
   "note": "Map semantics of add, remove, drop and lookup over any history, when memory is available and added RRsets are non-empty; otherwise refuted (c52_nomem_refuted, c52_add_empty_refuted)."
  },
  {
   "property": "C53",
   "status": "partial",
   "theorems": [
    "c53_atomic",
    "c53_find",
    "c53_find_force",
    "c53_foreach",
    "c53_del_prefix",
    "c53_copy_prefix",
    "c53_copy_prefixes_atomic_refuted",
    "c53_make_key",
    "c53_key_round_trip",
    "c53_unmake_safe",
    "c53_unmake_short_refuted",
    "c53_unmake_overread_refuted",
    "c53_quick_insert"
   ],
   "note": "LMDB is modelled by its documented behaviour with a failure oracle; three defects are refuted with witnesses; the rest of the statement is proved in full."
  },
  {
   "property": "C54",
   "status": "partial",
   "theorems": [
    "c54_same",
    "c54_net_match",
    "c54_net_match_unix",
    "c54_range_partial",
    "c54_range_v4_refuted",
    "c54_range_v4_partial",
    "c54_range_unix",
    "c54_is_any"
   ],
   "note": "Equality, networks, IPv6 ranges proved; IPv4 ranges are refuted (byte order) and characterised."
  },
  {
   "property": "C55",
   "status": "proved",
   "theorems": [
    "c55_exists",
    "c55_apex",
    "c55_children",
    "c55_update"
   ],
   "note": "Full for the operations on contents and for incremental updates (c55_update). The wildcard-child flag and the node pointers (prev, nsec3) are not modelled. The trie is a finite map here."
  },
  {
   "property": "C56",
   "status": "partial",
   "theorems": [
    "c56_recorded",
    "c56_ttl_refuted",
    "c56_lenient_refuted"
   ],
   "note": "For strict updates whose RRsets carry the TTL the zone has; both conditions are shown to be needed by the refutations. Operations are additions and removals of RRsets; UPDATE_NO_CHSET, full updates and the removal of nodes are outside the theorem."
  },
  {
   "property": "C57",
   "status": "partial",
   "theorems": [
    "c57_settled",
    "c57_isolated",
    "c57_commit",
    "c57_rollback_partial",
    "c57_history",
    "c57_nomem_refuted"
   ],
   "note": "Two versions of one node in a heap with arrays and data blocks. Not modelled: pointers to additional records, node flags and the copy-on-write trie. Rollback assumes that the array allocation of binode_prepare_change succeeded (otherwise c57_nomem_refuted)."
  },
  {
   "property": "C58",
   "status": "partial",
   "theorems": [
    "c58_wildcard_flag_partial",
    "c58_search",
    "c58_answer_partial",
    "c58_overlong_refuted",
    "c58_wild_dname_refuted",
    "c58_nsec3_wildcard_refuted"
   ],
   "note": "with room in the packet; excluded: names too long for a DNAME, DNAMEs at wildcards, NSEC3 nodes at the wildcard below the apex (all three refuted); DNSSEC and additional records not modelled"
  },
  {
   "property": "C59",
   "status": "partial",
   "theorems": [
    "c59_message_round_trip_partial"
   ],
   "note": "For the histories of C12 (its conditions on calls apply; without them it is false, c12_failed_put_refuted, c12_reserve_question_refuted), RDATA that can be read back and OPT and TSIG in their places, if the parser does not run out of memory."
  },
  {
   "property": "C60",
   "status": "partial",
   "theorems": [
    "c60_signed_partial",
    "c60_no_churn_partial",
    "c60_stable_partial",
    "c60_stable_node_partial",
    "c60_threads",
    "c60_next_partial",
    "c60_succeeds_partial",
    "c60_lifetime_refuted",
    "c60_old_expiration_refuted",
    "c60_other_algorithm_refuted"
   ],
   "note": "Conditions: a lifetime below 2^31-5400 s, no existing expiration near or before the epoch, compared signatures of deterministic algorithms only, nodes marked as validated really are. Each is needed: c60_*_refuted."
  },
  {
   "property": "C61",
   "status": "partial",
   "theorems": [
    "c61_accepted_partial",
    "c61_complete_partial",
    "c61_signed_accepted_partial",
    "c61_far_expiration_refuted",
    "c61_dangling_refuted",
    "c61_many_keys_refuted"
   ],
   "note": "At most 127 keys, times that 32-bit fields express, deterministic algorithms where signatures are compared. Without these it is refuted: c61_*_refuted."
  },
  {
   "property": "C62",
   "status": "partial",
   "theorems": [
    "c62_received_partial",
    "c62_any_segments",
    "c62_empty_late_refuted",
    "c62_memory_refuted"
   ],
   "note": "Theorems cover every stream, segmentation and failing allocation. Missing: what happens on a connection after an allocation failure, which is refuted (c62_memory_refuted); an empty message may be late (c62_empty_late_refuted)."
  },
  {
   "property": "C63",
   "status": "partial",
   "theorems": [
    "c63_sent_partial",
    "c63_window_partial",
    "c63_resend_partial",
    "c63_small_mss_refuted",
    "c63_memory_refuted"
   ],
   "note": "One connection with replies, sendings and confirmations in any order. Missing: closing handshakes, the mode that drops the last octet for tests, failing allocations (refuted: c63_memory_refuted) and windows of 2^31 and more."
  },
  {
   "property": "C64",
   "status": "proved",
   "theorems": [
    "c64_encoded",
    "c64_decoded",
    "c64_round_trip",
    "c64_round_trip_x509",
    "c64_wrong_length",
    "c64_only_der_refuted",
    "c64_longest_refuted"
   ],
   "note": "The reader also takes encodings that are not DER (c64_only_der_refuted), and the general writer fails an assertion at 127 octets, not reachable for the two algorithms (c64_longest_refuted). Memory allocation is taken to succeed."
  },
  {
   "property": "C65",
   "status": "proved",
   "theorems": [
    "c65_runs",
    "c65_one_value",
    "c65_still_used",
    "c65_list",
    "c65_algorithm",
    "c65_load_serials",
    "c65_load_ttls",
    "c65_load_salt",
    "c65_load_policy",
    "c65_salt_found",
    "c65_algorithm_refuted",
    "c65_damaged_refuted",
    "c65_csk_refuted"
   ],
   "note": "Over all histories of the modelled operations and all failures of LMDB. Arguments are well formed: names within the limits of DNS, C strings of at most 254 octets, a combined key is a key signing key. Records of offline keys and sweeping are not modelled. Three wider readings are refuted by theorems: an LMDB failure is reported as a missing key when asking for an algorithm, a damaged value is read out of bounds, and a key with inconsistent marks blocks the listing."
  },
  {
   "property": "C66",
   "status": "partial",
   "theorems": [
    "c66_answers",
    "c66_nxdomain",
    "c66_nxdomain_when",
    "c66_nodata",
    "c66_nodata_when",
    "c66_wildcard_partial",
    "c66_referral",
    "c66_history",
    "c66_wildcard_ent_refuted",
    "c66_wildcard_qname_refuted"
   ],
   "note": "All outcomes of the lookup of one name are characterised and their proofs shown complete, on the zones of every history of C33. Two cases of wildcards lack a record the validator needs (refuted by examples); c66_wildcard_partial leaves them out. Chains of CNAME and DNAME, NSEC3, truncation and the types ANY, RRSIG and NSEC are not modelled."
  },
  {
   "property": "C67",
   "status": "partial",
   "theorems": [
    "c67_history",
    "c67_step",
    "c67_closed",
    "c67_indices",
    "c67_room_refuted",
    "c67_mixed_refuted",
    "c67_sweep_refuted"
   ],
   "note": "Proved for the variant with epoll, for all histories in which the kernel has room for what is added (c67_history, c67_step, c67_closed, c67_indices). Without room the property fails: c67_room_refuted, c67_mixed_refuted, c67_sweep_refuted. kqueue and poll are not modelled."
  },
  {
   "property": "C68",
   "status": "proved",
   "theorems": [
    "c68_history",
    "c68_load",
    "c68_update",
    "c68_reload"
   ],
   "note": "Proved for all histories of a load and incremental updates, with failing allocations. That an update records every node it touches is a condition (the C57 layer models this for single nodes)."
  },
  {
   "property": "C69",
   "status": "partial",
   "theorems": [
    "c69_index",
    "c69_update",
    "c69_additionals_partial",
    "c69_encloser_refuted",
    "c69_self_refuted",
    "c69_growth_refuted",
    "c69_null_refuted"
   ],
   "note": "The index and the nodes an update finds are proved right for all histories without allocation failures; that nodes not found keep right addresses is proved unless names above the mentioned one appear or disappear, and refuted there. Failing allocations and a node that mentions its own NSEC3 name are refuted."
  },
  {
   "property": "C70",
   "status": "partial",
   "theorems": [
    "c70_roundtrip",
    "c70_nested",
    "c70_injective",
    "c70_control_refuted",
    "c70_empty_name_refuted",
    "c70_depth_refuted"
   ],
   "note": "Proved for documents up to the depth the writer supports, with strings free of control characters and nonempty names of members: the text is read as the document (c70_roundtrip), a value in any block only adds to the text (c70_nested), and different documents have different texts (c70_injective). False outside: control characters (c70_control_refuted), empty names (c70_empty_name_refuted), the seventeenth nested block (c70_depth_refuted). jsonw_double is not modelled."
  },
  {
   "property": "C71",
   "status": "partial",
   "theorems": [
    "c71_in_order",
    "c71_progress",
    "c71_defined",
    "c71_kept",
    "c71_freed",
    "c71_counters",
    "c71_stall_refuted"
   ],
   "note": "Proved for one stream under the condition on adding; the condition is needed (c71_stall_refuted). Not covered: the removal of finished streams from the array of the connection, resets of streams, and KNOT_QUIC_SEND_IGNORE_LASTBYTE, which only kxdpgun uses."
  },
  {
   "property": "C72",
   "status": "partial",
   "theorems": [
    "c72_served",
    "c72_delete",
    "c72_closest",
    "c72_query",
    "c72_class",
    "c72_zero_refuted",
    "c72_direct_refuted"
   ],
   "note": "Proved for names without zero octets in labels, and for NOTIFY, UPDATE and transfers with types other than DS; both restrictions are needed (c72_zero_refuted, c72_direct_refuted)."
  }
 ]
}