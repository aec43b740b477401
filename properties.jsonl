{"id": "C01", "title": "Wire name validation is safe and exact", "statement": "Checking a domain name at a position of a message never reads outside the given window (nor outside the packet when following compression pointers), always terminates, and returns a positive length exactly when the bytes there encode a legal name (labels of 1..63 bytes, at most 255 bytes uncompressed including the root, each pointer strictly backwards, pointers only when a packet is supplied); the returned length is the number of bytes consumed at that position.", "quantifier": "every byte string, every window, every packet base, including hostile pointer chains", "why_tests_cant": "The input space is unbounded and adversarial; a pointer loop or over-read depends on a specific byte pattern that sampling will not hit.", "anchors": ["src/libknot/dname.c:knot_dname_wire_check", "src/libknot/packet/wire.h:knot_wire_next_label, knot_wire_get_pointer, knot_wire_is_pointer"]}
{"id": "C02", "title": "Name decompression after a successful check", "statement": "Whenever the name check succeeded, unpacking the same name into a buffer of at least its uncompressed length succeeds, writes exactly that many bytes, reads only inside the packet, and yields the uncompressed wire name the pointer chain denotes; with a smaller buffer it reports an error and never writes past the buffer.", "quantifier": "every packet, position and output buffer size", "why_tests_cant": "Memory safety of the second pass depends on an agreement between two loops over attacker-controlled data.", "anchors": ["src/libknot/dname.c:knot_dname_unpack", "src/libknot/dname.c:knot_dname_realsize"]}
{"id": "C03", "title": "Presentation format round trip", "statement": "Converting any legal wire name to text and parsing the text gives back the same wire name, byte for byte (before any lower-casing), for all 256 byte values in labels; the text length never exceeds the documented maximum; and parsing arbitrary text never writes outside the output buffer and yields only legal names.", "quantifier": "every legal wire name; every character string", "why_tests_cant": "Escaping must be right for every byte value at every position, also at buffer-end boundaries.", "anchors": ["src/libknot/dname.c:knot_dname_to_str, knot_dname_from_str"]}
{"id": "C04", "title": "Name comparison is the DNSSEC canonical total order", "statement": "Comparing two names returns zero only for equal names, is antisymmetric and transitive, and agrees with RFC 4034 canonical ordering (label by label from the root, shorter label first on a tie) for lower-case names.", "quantifier": "every pair / triple of legal names", "why_tests_cant": "Order laws are universally quantified over triples; the zone tree and NSEC chain rely on all of them.", "anchors": ["src/libknot/dname.c:knot_dname_cmp, knot_dname_lf"]}
{"id": "C05", "title": "Suffix relations between names", "statement": "The bailiwick test holds exactly when the second name is a label-wise suffix of the first, and returns the number of extra labels; the matched-label count is the length of the longest common label suffix; replacing a suffix yields the prefix followed by the new suffix.", "quantifier": "every pair of legal names", "why_tests_cant": "Off-by-one label alignment errors only show for specific label-length coincidences.", "anchors": ["src/libknot/dname.c:knot_dname_in_bailiwick, knot_dname_matched_labels, knot_dname_replace_suffix, knot_dname_labels"]}
{"id": "C06", "title": "Case folding", "statement": "Lower-casing is idempotent, length preserving and never changes label-length bytes; two names compare equal ignoring case exactly when their lower-cased forms are identical.", "quantifier": "every legal wire name", "why_tests_cant": "A label length in 65..90 would be corrupted by naive folding; only a statement about all bytes excludes it.", "anchors": ["src/libknot/dname.c:knot_dname_to_lower, knot_dname_is_case_equal, knot_dname_copy_lower", "src/contrib/tolower.h"]}
{"id": "C07", "title": "RDATA sets are mathematical sets", "statement": "Adding, merging, intersecting and subtracting record sets behave as the corresponding operations on finite sets of RDATA, membership tests are exact, and the result is independent of the order in which records were added (canonical sorted form without duplicates).", "quantifier": "every sequence of operations on every collection of RDATA", "why_tests_cant": "Duplicates and ordering mistakes depend on operation history.", "anchors": ["src/libknot/rdataset.c:knot_rdataset_add, knot_rdataset_merge, knot_rdataset_intersect, knot_rdataset_subtract, knot_rdataset_member, knot_rdataset_subset, knot_rdataset_eq", "src/libknot/rdata.h:knot_rdata_cmp"]}
{"id": "C08", "title": "RDATA set bounds and failure atomicity", "statement": "A record set never holds more than 65535 records nor more bytes than its size counter can express, and an operation that reports an error leaves the set unchanged.", "quantifier": "every set and every operation, at the limits", "why_tests_cant": "The limits are too large to exercise exhaustively in unit tests.", "anchors": ["src/libknot/rdataset.c:add_rr_at, knot_rdataset_merge"]}
{"id": "C09", "title": "Name compression round trip", "statement": "Writing an owner name with compression into a message and then decompressing it at that offset gives the same name (up to letter case), using only strictly backward pointers below 16384.", "quantifier": "every sequence of names written into one message", "why_tests_cant": "Correctness depends on the whole history of earlier names in the packet.", "anchors": ["src/libknot/packet/rrset-wire.c:knot_compr_put_dname", "src/libknot/packet/compr.h"]}
{"id": "C10", "title": "RRset write/parse round trip", "statement": "Parsing the bytes produced by writing an RRset gives back its owner, type, class, TTL and the same RDATA, for every record type layout.", "quantifier": "every RRset whose RDATA is well formed, at every packet offset", "why_tests_cant": "RDATA descriptors mix fixed, name and remainder blocks in many combinations.", "anchors": ["src/libknot/packet/rrset-wire.c:knot_rrset_to_wire_extra, knot_rrset_rr_from_wire, rdata_traverse_write, rdata_traverse_parse", "src/libknot/descriptor.c"]}
{"id": "C11", "title": "Record parsing is safe", "statement": "Parsing a resource record from a message never reads outside the message, always terminates, advances the position by the exact record length on success and consumes at least 11 bytes, and any error leaves no partially filled record visible.", "quantifier": "every byte string and start position", "why_tests_cant": "Hostile input.", "anchors": ["src/libknot/packet/rrset-wire.c:knot_rrset_rr_from_wire, parse_header, parse_rdata"]}
{"id": "C12", "title": "Writing never exceeds the packet limit and failed writes are invisible", "statement": "The packet size never exceeds the allowed maximum minus the reserved space; a put that returns an error leaves size, counters and the already written bytes unchanged; header counters equal the number of records present.", "quantifier": "every sequence of put operations with any limits", "why_tests_cant": "Space exhaustion can happen at any record boundary inside an RRset.", "anchors": ["src/libknot/packet/pkt.c:knot_pkt_put_rotate, knot_pkt_reserve, knot_pkt_reclaim, knot_pkt_begin, knot_pkt_put_question"]}
{"id": "C13", "title": "Packet parsing accepts only well-formed messages", "statement": "If parsing of a packet succeeds then the number of parsed records equals the header counts, sections are contiguous and in order, at most one OPT and at most one TSIG record is present, TSIG is the last record, and no trailing bytes remain; memory use is bounded by the packet size.", "quantifier": "every byte string", "why_tests_cant": "Hostile input with arbitrary counts.", "anchors": ["src/libknot/packet/pkt.c:knot_pkt_parse, knot_pkt_parse_section, parse_payload, check_rr_constraints"]}
{"id": "C14", "title": "RDATA length is honoured exactly", "statement": "When a resource record is accepted, the RDATA consumed exactly RDLENGTH bytes of the message.", "quantifier": "every message", "why_tests_cant": "Interaction of compression expansion and length checks.", "anchors": ["src/libknot/packet/rrset-wire.c:parse_rdata"]}
{"id": "C15", "title": "TSIG timing, truncation and error handling", "statement": "A signed message is accepted only if the MAC verifies with full algorithm length, and the signing time is within the fudge window of the local time; the wire digested on the verifier side is the one digested by the signer, so an unmodified message signed by the same key and algorithm is accepted exactly inside the window.", "quantifier": "every message, key, time and fudge value", "why_tests_cant": "Window boundaries and 48-bit arithmetic.", "anchors": ["src/libknot/tsig-op.c:knot_tsig_sign, knot_tsig_server_check, check_time_signed, check_digest"]}
{"id": "C16", "title": "Serial number comparison follows RFC 1982", "statement": "Serial comparison gives equal, lower, greater or incomparable exactly as RFC 1982 defines with 32-bit serials; it is antisymmetric; incomparable happens exactly at distance 2^31.", "quantifier": "every pair of 32-bit serials", "why_tests_cant": "2^64 pairs.", "anchors": ["src/knot/zone/serial.c:serial_compare", "src/knot/zone/serial.h"]}
{"id": "C17", "title": "Next serial policy", "statement": "With any serial policy the next serial satisfies the configured modulo congruence, and when an increment is required the new serial is greater than the old one in serial arithmetic.", "quantifier": "every current serial, policy, modulus, remainder and clock value", "why_tests_cant": "Wrap-around near 2^32 and clock-dependent branches.", "anchors": ["src/knot/zone/serial.c:serial_next_generic, serial_dateserial, serial_modulo_parse"]}
{"id": "C18", "title": "Journal changeset serialization round trip", "statement": "Reading back a changeset that was serialized into chunks of any size limit gives the same records in the same order with the same serials; every chunk respects the maximum size unless a single record exceeds it.", "quantifier": "every changeset and chunk limits", "why_tests_cant": "Chunk boundaries can fall after any record.", "anchors": ["src/knot/journal/serialization.c:serialize_prepare, serialize_chunk, deserialize_rrset", "src/knot/journal/journal_read.c"]}
{"id": "C19", "title": "Journal metadata describes a contiguous history", "statement": "After any sequence of inserts, zone-in-journal inserts, flushes, merges, deletions and scrapes the journal metadata (first serial, serial-to, flushed-upto, changeset count) describes a chain of stored changesets in which each ends with the serial the next one starts with.", "quantifier": "every history of journal operations, all usage and depth limits", "why_tests_cant": "The invariant depends on unbounded operation histories, including deletions forced by limits.", "anchors": ["src/knot/journal/journal_write.c:journal_insert, journal_insert_zone, journal_delete, journal_fix_occupation, journal_merge", "src/knot/journal/journal_metadata.c"]}
{"id": "C20", "title": "Journal crash atomicity", "statement": "A crash at any point of an insert leaves either the journal before the operation or after it (or after an intended committed prefix of it); no reader ever observes a journal whose metadata and chunks disagree.", "quantifier": "every operation and every crash point between transactions", "why_tests_cant": "Crash points cannot be enumerated by unit tests.", "anchors": ["src/knot/journal/journal_write.c", "src/knot/journal/knot_lmdb.c:knot_lmdb_commit, knot_lmdb_abort"]}
{"id": "C21", "title": "Reading the journal from a serial", "statement": "Reading from a serial yields a contiguous sequence of changesets beginning at that serial and ending at the journal's last serial, always terminates, and fails with an error instead of returning a gap.", "quantifier": "every reachable journal state and starting serial", "why_tests_cant": "Depends on the whole history.", "anchors": ["src/knot/journal/journal_read.c:journal_read_begin, journal_read_get_changeset, journal_walk_from"]}
{"id": "C22", "title": "Journal limits", "statement": "Insertion never makes the number of stored changesets exceed the configured depth, and never deletes a changeset that has not been flushed to the zone file.", "quantifier": "every history and every limit", "why_tests_cant": "Histories.", "anchors": ["src/knot/journal/journal_write.c:journal_fix_occupation, journal_try_flush, delete_merged"]}
{"id": "C23", "title": "Zone diff is exact", "statement": "Applying the difference of two zones to the first zone gives exactly the second, the difference is empty only when zones are equal, and no record occurs both in the removal and the addition part.", "quantifier": "every pair of zones", "why_tests_cant": "Unbounded zones; type/TTL/rdata interactions.", "anchors": ["src/knot/zone/zone-diff.c", "src/knot/updates/apply.c"]}
{"id": "C24", "title": "Changeset merging is composition", "statement": "Applying the merge of two consecutive changesets has the same effect as applying one after another, and merging keeps additions and removals disjoint.", "quantifier": "every zone and every pair of changesets applicable in sequence", "why_tests_cant": "Cancellation of add/remove pairs must be right for every combination.", "anchors": ["src/knot/updates/changesets.c:changeset_merge, changeset_add_addition, changeset_add_removal, check_redundancy"]}
{"id": "C25", "title": "Changeset application and rollback", "statement": "Applying a changeset fails if it removes a missing record in strict mode, and rolling back a partially applied changeset restores exactly the original zone content.", "quantifier": "every zone, changeset and failure point", "why_tests_cant": "Failure points.", "anchors": ["src/knot/updates/apply.c:apply_add_rr, apply_remove_rr, update_rollback"]}
{"id": "C26", "title": "Dynamic update prerequisites", "statement": "Prerequisite processing succeeds exactly when all RFC 2136 section 3.2 conditions hold for the zone content, in particular the value-dependent RRset comparison is exact set equality.", "quantifier": "every zone and every prerequisite section", "why_tests_cant": "Unbounded combinations.", "anchors": ["src/knot/updates/ddns.c:ddns_process_prereqs, process_prereq, check_stored_rrsets"]}
{"id": "C27", "title": "Dynamic update semantics preserve zone integrity", "statement": "After any accepted update section the apex still has a SOA and at least one NS record, a CNAME never coexists with other data, SOA deletions are ignored, and the SOA serial never decreases.", "quantifier": "every zone and every update message", "why_tests_cant": "Sequences of update operations.", "anchors": ["src/knot/updates/ddns.c:process_add, process_remove, ddns_process_update"]}
{"id": "C28", "title": "ACL evaluation", "statement": "A request is allowed exactly when some rule matches address, key, protocol and action and the first matching rule is not a deny rule; with no matching rule it is refused; a request signed with an unlisted key never matches a rule requiring a key.", "quantifier": "every rule list and every request", "why_tests_cant": "Unbounded lists, order dependence.", "anchors": ["src/knot/updates/acl.c:acl_allowed, check_addr_key"]}
{"id": "C29", "title": "Key-value trie is an ordered map", "statement": "Insert, lookup and delete on the trie behave as on a finite map from byte strings to values, and iteration visits keys in lexicographic order exactly once.", "quantifier": "every sequence of operations on arbitrary byte-string keys (also prefixes of each other)", "why_tests_cant": "Branching on nibbles and end-of-key handling depends on histories.", "anchors": ["src/contrib/qp-trie/trie.c:trie_get_try, trie_get_ins, trie_del, trie_it_next"]}
{"id": "C30", "title": "Less-or-equal lookup", "statement": "The predecessor lookup returns the exact match if present, otherwise the greatest key smaller than the argument, or reports that there is none.", "quantifier": "every trie content and key", "why_tests_cant": "Depends on the branch where the search diverges.", "anchors": ["src/contrib/qp-trie/trie.c:trie_get_leq"]}
{"id": "C31", "title": "Copy-on-write isolation", "statement": "While a new version of a trie is being modified, lookups in the old version give the results they gave at the start; after commit the new content, after rollback the old content remains.", "quantifier": "every modification sequence", "why_tests_cant": "Sharing structure.", "anchors": ["src/contrib/qp-trie/trie.c:trie_cow, trie_cow_commit, trie_cow_rollback"]}
{"id": "C32", "title": "NSEC type bitmap codec", "statement": "The type bitmap built from a set of types contains exactly those types, is canonical (windows ascending, no trailing zero octets), and the written size is the announced size.", "quantifier": "every set of 16-bit types", "why_tests_cant": "2^65536 sets.", "anchors": ["src/libdnssec/nsec/bitmap.c"]}
{"id": "C33", "title": "NSEC chain closure", "statement": "For every set of authoritative names the generated NSEC records form a single closed cycle in canonical order starting and ending at the apex, each name appearing exactly once; the incremental fix gives the same chain as full regeneration.", "quantifier": "every zone and every update of it", "why_tests_cant": "Histories.", "anchors": ["src/knot/dnssec/nsec-chain.c:knot_nsec_chain_iterate_create, knot_nsec_chain_iterate_fix"]}
{"id": "C34", "title": "Timer heap delivers the earliest event", "statement": "The event heap always returns an element with minimal time; insert, replace and delete of arbitrary elements keep exactly the other elements.", "quantifier": "every sequence of heap operations", "why_tests_cant": "Histories.", "anchors": ["src/contrib/ucw/heap.c", "src/knot/common/evsched.c"]}
{"id": "C35", "title": "Zone event planning", "statement": "The event executed next for a zone is one with the earliest planned time among those allowed (frozen zones run only whitelisted events), no planned event is lost, and at most one event per zone runs at a time.", "quantifier": "every schedule of plan/run/freeze/cancel operations", "why_tests_cant": "Schedules.", "anchors": ["src/knot/events/events.c:get_next_event, reschedule, event_wrap, event_dispatch, zone_events_schedule_at"]}
{"id": "C36", "title": "Zone timers persist", "statement": "Timers written for a zone and read back are the same; reading any stored byte string terminates and gives either timers or an error.", "quantifier": "every timers value; every byte string", "why_tests_cant": "All values, malformed data.", "anchors": ["src/knot/zone/timers.c:serialize_timers, deserialize_timers, txn_write_timers"]}
{"id": "C37", "title": "Key rollover safety", "statement": "In every run of automatic key management a zone always retains an active key for signing, a key is removed only after it was retired, and key timestamps are ordered along its life.", "quantifier": "every sequence of rollover actions and times", "why_tests_cant": "Schedules and time.", "anchors": ["src/knot/dnssec/key-events.c"]}
{"id": "C38", "title": "Catalog zone updates", "statement": "Adding and removing members in a catalog update is consistent: after commit each member belongs to exactly the catalog that listed it last, add followed by remove cancels, and conflicting claims from another catalog do not steal a member.", "quantifier": "every sequence of catalog changes", "why_tests_cant": "Histories across catalogs.", "anchors": ["src/knot/catalog/catalog_update.c"]}
{"id": "C39", "title": "Incoming zone transfer state machine", "statement": "An incoming IXFR is applied only when the answer is a well-formed sequence of difference sequences ending with the initial SOA; the changesets chain from the local serial to the master's; anything else is rejected without changing the zone.", "quantifier": "every message sequence from a master", "why_tests_cant": "Message boundaries and hostile masters.", "anchors": ["src/knot/events/handlers/refresh.c:ixfr_step, ixfr_consume"]}
{"id": "C40", "title": "CNAME chain following terminates", "statement": "Answering a query follows at most a bounded number of CNAME/DNAME steps and terminates for every zone content including cycles.", "quantifier": "every zone and question", "why_tests_cant": "Cyclic data.", "anchors": ["src/knot/nameserver/internet.c:follow_cname, answer_query"]}
{"id": "C41", "title": "Control protocol framing round trip", "statement": "Any sequence of control data units sent through the control channel is received unchanged, with any split of the byte stream and any buffer boundary.", "quantifier": "every unit sequence and stream segmentation", "why_tests_cant": "Stream segmentation schedules.", "anchors": ["src/libknot/control/control.c:knot_ctl_send, knot_ctl_receive"]}
{"id": "C42", "title": "Configuration value conversions round trip", "statement": "Converting an item value to binary and back to text and again to binary gives the same binary value (integers with units, addresses, names, base64, hex).", "quantifier": "every value in range", "why_tests_cant": "Unit boundaries and overflow.", "anchors": ["src/libknot/yparser/yptrafo.c"]}
{"id": "C43", "title": "Base64 codec", "statement": "Decoding the encoding of any byte string gives it back; output never exceeds the announced length; every accepted text is a legal Base64 string with padding only at the end.", "quantifier": "every byte string; every text", "why_tests_cant": "All inputs.", "anchors": ["src/contrib/base64.c:knot_base64_encode, knot_base64_decode"]}
{"id": "C44", "title": "Base32hex codec", "statement": "Decoding the encoding of any byte string gives it back; encoding preserves lexicographic order of hashes; output sizes are exact.", "quantifier": "every byte string; every text", "why_tests_cant": "All inputs.", "anchors": ["src/contrib/base32hex.c:knot_base32hex_encode, knot_base32hex_decode"]}
{"id": "C45", "title": "Base64url codec", "statement": "Decoding the encoding of any byte string gives it back and output sizes are exact.", "quantifier": "every byte string; every text", "why_tests_cant": "All inputs.", "anchors": ["src/contrib/base64url.c"]}
{"id": "C46", "title": "Unreachable-remote memory expires", "statement": "An address reported unreachable is treated as such for the configured time and not longer.", "quantifier": "every history of reports and all 32-bit clock values", "why_tests_cant": "Clock wrap-around.", "anchors": ["src/knot/common/unreachable.c"]}
{"id": "C47", "title": "Connection pool hands out each connection once", "statement": "A connection put to the pool is returned at most once, only for the same address pair, and every connection is either returned, closed or still pooled; the pool never exceeds its capacity.", "quantifier": "every history of put/get/close operations", "why_tests_cant": "Histories.", "anchors": ["src/contrib/conn_pool.c"]}
{"id": "C48", "title": "Bounded buffer reader/writer", "statement": "Reads and writes through the wire context never touch bytes outside the buffer; after the first error nothing is read or written; a value written is read back; formatted printing that reports success stored the complete text.", "quantifier": "every sequence of operations", "why_tests_cant": "Histories and boundary sizes.", "anchors": ["src/contrib/wire_ctx.h"]}
{"id": "C49", "title": "EDNS option handling", "statement": "Parsing the OPT RDATA never reads out of bounds, accepts exactly well-formed option lists, and an option added is found by lookup with the same data.", "quantifier": "every OPT RDATA", "why_tests_cant": "Hostile input.", "anchors": ["src/libknot/rrtype/opt.c"]}
{"id": "C50", "title": "DNS cookies", "statement": "A server cookie generated for a client is accepted by the check within its lifetime and rejected outside, for all 32-bit clock values.", "quantifier": "every client cookie, address, secret, time", "why_tests_cant": "Clock wrap-around.", "anchors": ["src/libknot/cookies.c"]}
{"id": "C51", "title": "PROXYv2 header parsing", "statement": "Decapsulation never reads out of bounds and gives the encoded source address and the exact payload offset.", "quantifier": "every byte string", "why_tests_cant": "Hostile input.", "anchors": ["src/contrib/proxyv2/proxyv2.c"]}
{"id": "C52", "title": "Zone node record operations", "statement": "Adding and removing RRsets at a node behave as on a map from type to record set; a node never keeps an empty RRset and never has two entries of the same type.", "quantifier": "every sequence of operations", "why_tests_cant": "Histories.", "anchors": ["src/knot/zone/node.c:node_add_rrset, node_remove_rrset, node_remove_rdataset"]}
{"id": "C53", "title": "Key-value store transactions", "statement": "A sequence of reads, inserts and deletions in a write transaction is all or nothing: if any step or the commit fails, the stored database is unchanged and an error is returned; on success the result equals performing the steps without failures. Lookups (exact, at most, at least) return the pair the order prescribes; iteration over a prefix visits exactly the keys with the prefix in order; deleting and copying a prefix affect exactly those keys; structured keys decode to the encoded fields.", "quantifier": "every database content, every sequence of operations, every failure point of the underlying store, every key", "why_tests_cant": "Failure points and contents are unbounded.", "anchors": ["src/knot/journal/knot_lmdb.c:knot_lmdb_begin, knot_lmdb_commit, knot_lmdb_find, knot_lmdb_next, knot_lmdb_del_prefix, knot_lmdb_copy_prefix, knot_lmdb_make_key, knot_lmdb_unmake_key"]}
{"id": "C54", "title": "Address matching", "statement": "Two socket addresses compare equal exactly if they are the same address (and port unless ignored); an address matches a network exactly if the first prefix bits agree; an address lies in a range exactly if its number is between the bounds; the any-address test accepts exactly the all-zero address.", "quantifier": "every pair or triple of addresses of every family, every port, every prefix length", "why_tests_cant": "The address space is not enumerable and the byte order of the comparison decides range membership; access control depends on it.", "anchors": ["src/contrib/sockaddr.c:sockaddr_cmp, sockaddr_net_match, sockaddr_range_match, sockaddr_is_any"]}
{"id": "C55", "title": "Existence of names in a zone", "statement": "After any history of additions and removals a name below the apex exists in the zone exactly if some record is owned by it or by a name below it (empty non-terminals appear and vanish with the records below them); the apex always exists; every node knows the exact number of its children.", "quantifier": "every history of record additions, removals, strict or lenient, directly or through updates, every name", "why_tests_cant": "Histories and trees are unbounded; NXDOMAIN and NODATA answers and denial proofs depend on it.", "anchors": ["src/knot/zone/zone-tree.c:zone_tree_add_node, zone_tree_del_node", "src/knot/zone/contents.c:insert_rr, remove_rr", "src/knot/updates/apply.c:apply_add_rr, apply_remove_rr"]}
{"id": "C56", "title": "The recorded changeset tells the difference", "statement": "The changeset recorded during an incremental update, applied to the zone before the update, gives the zone after it.", "quantifier": "every zone and every sequence of additions and removals", "why_tests_cant": "Histories are unbounded; secondaries and the journal receive the recorded changeset, not the zone.", "anchors": ["src/knot/updates/zone-update.c:zone_update_add, zone_update_remove, solve_add_different_ttl", "src/knot/updates/changesets.c:changeset_add_addition, changeset_add_removal"]}
{"id": "C57", "title": "Readers do not see an update in progress", "statement": "While an update adds and removes records at a node, a reader of the published version of the node sees exactly what was published. Committing makes exactly the updated contents visible in both versions, abandoning the update restores the published contents, and in both cases no memory is leaked, shared wrongly or released twice, so that any number of updates can follow one another.", "quantifier": "every node, every sequence of record additions and removals at it, every sequence of commits and abandoned updates, every outcome of memory allocation during removals and additions", "why_tests_cant": "Histories are unbounded and readers run at arbitrary points of them; aliasing errors between the versions surface only in particular histories.", "anchors": ["src/knot/zone/node.c:binode_unify, binode_prepare_change, binode_rdata_shared, node_add_rrset, node_remove_rrset", "src/knot/updates/apply.c:apply_add_rr, apply_remove_rr, apply_cleanup, apply_rollback"]}
{"id": "C58", "title": "Answers are what the zone has for the question", "statement": "The response to a query has, in the answer section, the RRsets that the resolution of the name in the zone gives: the data of the name or of the wildcard that stands for it, the aliases and DNAMEs (with synthesised CNAMEs) on the way; a name below a zone cut gives a referral with the NS RRset of the cut and without AA, a name without such data gives the SOA, and a name that does not exist gives NXDOMAIN with the SOA.", "quantifier": "every zone after every history of changes, every name and type", "why_tests_cant": "Zones combine wildcards, delegations, empty names, aliases and DNAMEs in unboundedly many ways, and the flags used in the search depend on the history of the zone.", "anchors": ["src/knot/nameserver/internet.c:solve_name, name_found, name_not_found, follow_cname, solve_authority", "src/knot/zone/contents.c:zone_contents_find_dname", "src/knot/zone/adjust.c:adjust_cb_flags", "src/knot/zone/zone-tree.c:zone_tree_add_node, zone_tree_remove_node"]}
{"id": "C59", "title": "What is written into a message is what is read from it", "statement": "After any sequence of calls that start a message, put a question, open sections, reserve and give back space and put RRsets (some of which may fail for lack of space or memory), parsing the resulting octets succeeds and returns the same question and exactly the records of the successful calls, in their sections and in their order, with names in lower case where the canonical form asks for it.", "quantifier": "every history of calls of the packet interface with every content, limit and failure", "why_tests_cant": "Writer and parser have to agree on every combination of compression, rotation, truncation and section counts.", "anchors": ["src/libknot/packet/pkt.c:knot_pkt_begin, knot_pkt_put_question, knot_pkt_put_rotate, knot_pkt_reserve, knot_pkt_reclaim, knot_pkt_parse", "src/libknot/packet/rrset-wire.c:knot_rrset_to_wire_extra, knot_rrset_rr_from_wire"]}
{"id": "C60", "title": "Signing gives a zone with good signatures, and leaves good ones alone", "statement": "After the zone is signed, every authoritative RRset (at a delegation only DS and NSEC) has a signature by every key in use for it (KSKs for DNSKEY, CDS and CDNSKEY at the apex, ZSKs for the rest), at most one per key, which verifies and does not expire within the refresh period; there are no other signatures and no other record changes. A signature is replaced only if it was bad or due. Signing again before a signature is due changes nothing, the number of signing threads makes no difference, and the next signing is scheduled in the future but before any signature is due.", "quantifier": "every zone, every set of keys, every setting and time, every number of threads and every cryptography in which what is signed verifies", "why_tests_cant": "Existing signatures, key roles and times combine without bound; a missed case leaves an RRset bogus only when its signature expires.", "anchors": ["src/knot/dnssec/zone-sign.c:sign_node_rrsets, add_missing_rrsigs, force_resign_rrset, remove_standalone_rrsigs, zone_tree_sign, knot_zone_sign, knot_zone_sign_use_key, knot_zone_sign_rr_should_be_signed", "src/knot/dnssec/rrset-sign.c:knot_sign_rrset, knot_check_signature", "src/libdnssec/sign/sign.c:dnssec_sign_verify", "src/contrib/time.h:knot_time_from_u32"]}
{"id": "C61", "title": "Validation accepts a zone exactly when its signatures are valid", "statement": "DNSSEC validation of a zone accepts it only if every RRset that must be signed has a valid signature by a key of the zone with the right role, every signature covers such an RRset and every signature that names a key of the zone is valid; the zone stays valid until the time that is reported. A zone whose signatures are all valid is accepted, in particular a zone that the server has signed itself.", "quantifier": "every zone with every set of signatures, at most 127 keys, every time", "why_tests_cant": "A forged zone can contain any combination of signatures and key tags.", "anchors": ["src/knot/dnssec/zone-sign.c:knot_validate_rrsigs, valid_signature_exists, key_used, sign_node_rrsets", "src/knot/dnssec/rrset-sign.c:knot_check_signature, is_expired_signature"]}
{"id": "C62", "title": "Messages over a stream are put together right however the stream is cut", "statement": "When a client sends DNS messages over TCP in user space or over QUIC, the server gets exactly these messages, each once and in order, however the stream of octets is cut into segments; octets of a message that is not complete are kept until the rest comes. Nothing outside the buffers is read or written, and the memory accounted is the memory held, at most twice what is needed.", "quantifier": "every stream of octets, every cutting into segments, both ways of storing the result and every failing allocation", "why_tests_cant": "A stream can be cut at every place, also inside the length of a message, in exponentially many ways.", "anchors": ["src/libknot/xdp/tcp_iobuf.c:knot_tcp_inbufs_upd, buffer_alloc_size, iov_inc, tcp_payload_len", "src/libknot/quic/quic_conn.c:knot_quic_stream_recv_data", "src/libknot/xdp/tcp.c:knot_tcp_recv"]}
{"id": "C63", "title": "Replies over TCP in user space arrive complete, in order and within the window", "statement": "Each segment sent on a connection has the octets of the stream of replies that belong to its sequence number, no octet is skipped, no segment reaches beyond the window offered by the client, and no segment is larger than the client allows. Octets are kept until the client has confirmed them, so that they can be sent again, and sending again starts with the octet the client waits for. Confirmed data are released and the memory accounted is the memory held. All this holds when sequence numbers wrap around.", "quantifier": "every initial sequence number, every sequence of replies, sendings with any window below 2^31, repeated sendings and confirmations, valid or not, every segment size from 536 to 65535", "why_tests_cant": "Wrong handling of the wrap-around of sequence numbers or of the order of sendings and confirmations shows only in rare histories.", "anchors": ["src/libknot/xdp/tcp_iobuf.c:knot_tcp_outbufs_add, knot_tcp_outbufs_ack, knot_tcp_outbufs_can_send, knot_tcp_outbufs_usage, seqno_lower", "src/libknot/xdp/tcp.c:knot_tcp_send, knot_tcp_recv, check_seq_ack, knot_tcp_reply_data"]}
{"id": "C64", "title": "ECDSA signatures keep their value between the forms of DNSSEC and X.509", "statement": "Every ECDSA signature in the form of DNSSEC is converted to the DER encoding of the same two numbers, and every pair of numbers that fits is converted back to two numbers of fixed size; converting there and back gives the same octets. A signature of a wrong length, with numbers too large, or with a malformed encoding is refused, and no input makes the conversion read or write out of its buffers.", "quantifier": "every signature of both ECDSA algorithms and every string of octets offered as an encoded signature", "why_tests_cant": "Leading zeroes and the highest bit of the numbers change the length of the encoding, so that a mistake shows only in rare signatures that cannot be produced at will.", "anchors": ["src/libdnssec/sign/der.c:dss_sig_value_decode, dss_sig_value_encode", "src/libdnssec/shared/bignum.c:bignum_size_u, bignum_size_s, bignum_write", "src/libdnssec/sign/sign.c:ecdsa_x509_to_dnssec, ecdsa_dnssec_to_x509"]}
{"id": "C65", "title": "The key database keeps what was stored, whole operations only", "statement": "After any history of adding, sharing and deleting keys, deleting zones, and storing NSEC3 salts, serials, TTLs and the last key of a policy, the database of keys holds exactly the facts the successful operations left. Listing gives every key of the zone once, with all its parameters, and no key of another zone; loading gives the value stored last; deleting a zone removes everything about it and nothing about other zones or policies. Deleting a key tells whether another zone still has it. The last key of a policy is changed only by a caller who knows the current one, and is given only while that key exists. An operation that reports a failure leaves the database unchanged; with no failure of the storage it fails only when it is impossible.", "quantifier": "every history of operations with well-formed arguments, and every failure of the storage at any call of it", "why_tests_cant": "Keys of the storage are prefixes searched in one sorted space shared by all zones, so that a clash shows only for some names; and failures of the storage may come at any call.", "anchors": ["src/knot/dnssec/kasp/kasp_db.c:make_key_str, params_serialize, params_deserialize, kasp_db_list_keys, kasp_db_get_key_algorithm, kasp_db_delete_key, kasp_db_delete_all, kasp_db_add_key, kasp_db_share_key, kasp_db_store_nsec3salt, kasp_db_load_nsec3salt, kasp_db_store_serial, kasp_db_load_serial, kasp_db_get_policy_last, kasp_db_set_policy_last, kasp_db_get_saved_ttls, kasp_db_set_saved_ttls"]}
{"id": "C66", "title": "Negative answers carry a complete NSEC proof", "statement": "For every query of a name in a zone signed with NSEC, the authority section has the records which prove the answer to a validator. A name error comes with a record denying the name and showing its closest encloser, and a record denying the wildcard there. Missing data comes with the record of the name without the type, or, for an empty non-terminal, with the record leading to a name below it. What is answered from a wildcard comes with a record denying the queried name. A referral comes with DS, or with the record of the delegation without DS. Records are those of the zone, none is put twice, and every query is answered.", "quantifier": "every zone that any history of signing and updates makes, every legal name in it, every query type but RRSIG, NSEC and ANY", "why_tests_cant": "Which record denies a name depends on the whole order of the zone: empty non-terminals, glue, delegations, wildcards and the wrap-around at the end of the chain, in any combination.", "anchors": ["src/knot/nameserver/nsec_proofs.c:nsec_previous, put_covering_nsec, put_nsec_nxdomain, put_nsec_nodata, put_wildcard_answer, nsec_prove_dp_security", "src/knot/nameserver/internet.c:solve_name, name_found, name_not_found, solve_authority_dnssec", "src/knot/zone/contents.c:zone_contents_find_dname", "src/knot/zone/zone-tree.c:zone_tree_get_less_or_equal"]}
{"id": "C67", "title": "A set of descriptors delivers events with what was registered for them", "statement": "After any sequence of adding, removing, setting of time limits and contexts, sweeping and rounds of events, the set holds exactly the descriptors that were added and not removed, each at one index and with the events, contexts and time limit set for it last, and the kernel watches the same descriptors. A round delivers every event that is ready at or above the offset, in the order of the kernel and with the contexts of its own descriptor, also when earlier events of the round add or remove others. A sweep ends, asks once about each descriptor that has expired and removes exactly those chosen. Removed descriptors are closed once and no other is. Indices below those removed do not change.", "quantifier": "all sequences of operations, all handlers of events and callbacks of the sweep, all sets of ready descriptors, all offsets and times", "why_tests_cant": "entries are moved when others are removed, and a wrong index shows only in particular orders of removals, events and additions; tests try a few of them", "anchors": ["src/knot/common/fdset.c: fdset_add, fdset_remove, fdset_poll, fdset_it_commit, fdset_set_watchdog, fdset_sweep", "src/knot/common/fdset.h: fdset_it_next, fdset_it_remove, fdset_it_get_ctx, fdset_ctx2", "src/knot/server/tcp-handler.c: tcp_wait_for_events, tcp_event_accept"]}
{"id": "C68", "title": "The size and the largest TTL of a zone are kept right by incremental updates", "statement": "After a zone was loaded and then changed by any number of incremental updates, the size the server keeps for it is the total size of its records, and the largest TTL it keeps (from which the waiting times of key rollovers follow) is not below the TTL of any record. Unless an allocation failed it is the TTL of some record, so both are what a load of the same contents gives, although an update measures only the nodes it touched.", "quantifier": "all zones, all sequences of updates with any touched nodes, allocation failures included", "why_tests_cant": "the update decides from three maxima whether the whole zone has to be measured again; the wrong decision shows only for particular TTLs of touched and untouched records, and stays wrong in later updates", "anchors": ["src/knot/zone/measure.c: knot_measure_init, knot_measure_node, re_measure_max_ttl, knot_measure_finish_zone, knot_measure_finish_update", "src/knot/zone/adjust.c: adjust_single, zone_adjust_contents, zone_adjust_update", "src/libknot/rrset.c: knot_rrset_size"]}
{"id": "C69", "title": "Updates find the records whose additional addresses they change", "statement": "The server keeps, for the names that NS, MX, SRV, SVCB and HTTPS records mention, an index back to the nodes that mention them, so that an incremental update can give these nodes their new addresses for the additional section. After a load and any updates, looking up a name in the index gives exactly the nodes that mention it or have it as the name of their NSEC3, each once; an update finds exactly the nodes that refer to a touched name, or to a name below the parent of a touched wildcard; and a node that is not found keeps the right nodes for its additional addresses. The last part is false when a name appears or disappears between a wildcard and a mentioned name; it is proved when no name above the mentioned one changes.", "quantifier": "all zones, all sequences of updates with any touched nodes, rebuilt and dropped indexes, with and without NSEC3, all names", "why_tests_cant": "a stale index shows only after particular sequences of updates on names that mention each other, and only in the additional section", "anchors": ["src/knot/zone/adds_tree.c: additionals_tree_update_node, additionals_tree_update_nsec3, additionals_tree_from_zone, additionals_tree_update_from_binodes, additionals_reverse_apply, additionals_reverse_apply_multi", "src/knot/zone/node.c: binode_additionals_unchanged", "src/libknot/dynarray.h: knot_dynarray_define", "src/knot/zone/adjust.c: zone_adjust_incremental_update, discover_additionals", "src/knot/zone/contents.c: zone_contents_find_node_or_wildcard"]}
{"id": "C70", "title": "JSON output reads back as the document", "statement": "For every document of objects, lists, strings, numbers, booleans and nulls, nested at most sixteen deep, writing it through the JSON interface gives a text that a JSON reader accepts and reads as exactly this document; two different documents never have the same text. This needs strings without control characters and members with nonempty names: it is false for a string with a newline, which kdig writes when a server sends one in the text of an extended error, and for an empty name.", "quantifier": "all documents up to the depth of sixteen, of any width, all strings, all numbers of the interface, all white indentations", "why_tests_cant": "documents are trees of any width and shape, and a misplaced comma, quote or escape shows only at particular places and octets", "anchors": ["src/contrib/json.c: jsonw_object, jsonw_list, jsonw_str, jsonw_str_len, jsonw_ulong, jsonw_int, jsonw_bool, jsonw_null, jsonw_end, jsonw_free, escaped_print, align_key", "src/utils/common/exec.c: json_edns_opt"]}
{"id": "C71", "title": "QUIC streams send each message once, in order, and keep it until acknowledged", "statement": "On a QUIC stream, whatever numbers of octets the transport takes and in whatever order the other side acknowledges them: the octets sent are the messages in the order they were added, each behind its length in two octets, without gaps or repetition; while something is unsent, the transport is given the next octets, with FIN exactly on the last ones; all that was added and not acknowledged stays in memory at its place; messages acknowledged as a whole are freed; and the counters that limit the memory are exact. Messages are added while something is unsent or when all was acknowledged; one added in between is never sent.", "quantifier": "all messages shorter than 65536 octets, all histories of adding, partial sending and acknowledging on one stream", "why_tests_cant": "errors depend on where the packets cut the messages and on how acknowledgements interleave with sending", "anchors": ["src/libknot/quic/quic_conn.c: knot_quic_stream_add_data, knot_quic_stream_ack_data, knot_quic_stream_mark_sent", "src/libknot/quic/quic.c: knot_quic_send"]}
{"id": "C72", "title": "Every query is for the closest zone", "statement": "After any insertions and deletions of zones, a lookup by name gives the zone inserted last under this name and not deleted since. A normal query is answered from the served zone with the most labels at or above the name of the query; a query for DS from the closest zone above the name, and from the zone of the name only if there is none above; transfers, NOTIFY and UPDATE are for the zone of exactly this name; queries of other classes than IN and ANY are for no zone. This needs names without zero octets in labels. It is false that NOTIFY and UPDATE always need the exact name: with the type DS they are given the zone above.", "quantifier": "all sequences of insertions and deletions, all names of queries, all types, classes and kinds of queries", "why_tests_cant": "the choice depends on all the served zones and on the whole history of the database", "anchors": ["src/knot/zone/zonedb.c: knot_zonedb_insert, knot_zonedb_del, knot_zonedb_find, knot_zonedb_find_suffix", "src/knot/nameserver/process_query.c: answer_zone_find"]}
