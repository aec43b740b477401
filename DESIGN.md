# Formal model of CZ-NIC/knot in Rocq

## Conventions

* Bytes are `Z` values (with a `byte` predicate 0..255 where it matters); buffers are `list Z`;
  C integers are `Z` with explicit `mod 2^k` where the C type wraps.
* Anything that would be undefined behaviour in C (out-of-bounds access, failing assert,
  overlapping memcpy, ...) is a *distinct outcome* `UB` of the model, never assumed away.
  Safety theorems say the outcome is not `UB`.
* Loops whose C termination argument is not structural take fuel; running out of fuel is a
  distinct outcome and a theorem excludes it (with a fuel computed from the input).
* `XxxModel.v` = model only, each definition cites file:lines. `XxxSpec.v` = small independent
  specification. `XxxProofs.v` = lemmas. `XxxProps.v` = the property theorems (one line proofs
  or short), non-vacuity `Example`s next to them and `Print Assumptions`.
* When the English property is false of the faithful model, the theorem is named `..._refuted`
  and gives the concrete witness; the weaker true statement is `..._partial`.

## Plan per property

| Id | What is modelled | How proved |
|----|------------------|-----------|
| C01 | knot_dname_wire_check as a fuelled loop over a memory image with window and packet base | strong induction on remaining bytes / pointer offset; equivalence with inductive `wire_name` relation |
| C02 | knot_dname_unpack, realsize | same relation, second pass agreement |
| C03 | knot_dname_to_str / from_str on byte lists | induction on labels, 256-value sweep for escapes |
| C04 | knot_dname_lf, knot_dname_cmp | lookup-format is order isomorphic to the reversed label list order |
| C05 | in_bailiwick, matched_labels, replace_suffix, labels, prefixlen | induction on label lists via encode/decode bijection |
| C06 | knot_tolower, to_lower, case_equal | label induction + byte sweep |
| C07,C08 | rdataset as sorted array of rdata, with uint16/uint32 counters | refinement to finite sets, invariant sortedness |
| C09 | compression writer with its context (suffix pointer) against packet image (ComprModel.v) | invariant "suffix points to an encoding of suffix name", induction over writes (ComprProofs*.v, PutProps.v) |
| C10,C11,C14 | rrset-wire.c and the tables of descriptor.c, write and parse, naptr.c, the canonical form of rrset.c; failures of allocation are flags | simulation block by block against the layouts of the RFCs (RrwireSpec.v); refutation witness for C14 |
| C12,C13 | packet builder (PutModel.v) and parser (PktparseModel.v) as operations on a record; what a message is: PutSpec.v, PktparseSpec.v | invariant over op lists (PutProofs*.v, PutProps.v); invariant over the records read so far, with a case for the message whose TSIG was removed (PktparseProofs*.v, PktparseProps.v) |
| C15 | libknot/rrtype/tsig.c (reading and writing the fields), tsig-op.c (the digested data, signing, the checks of time and MAC), nameserver/tsig_ctx.c (a requestor's context over a stream of messages) and the signing of answers by process_query.c (TsigModel.v). The HMAC is a function given to the model; the only assumption about it is the length of its result (`is_hmac`). The digested data, the record and the accepted streams are specified after RFC 8945 (TsigSpec.v). Not modelled: knot_tsig_add, the parse that finds the TSIG record and the comparison of the key name and algorithm by the ACL. | the bytes are computed by append lemmas, the streams by induction |
| C16,C17 | serial functions on Z mod 2^32 | lia with div/mod |
| C18 | serialization.c (prepare and chunk, the buffer of RRsets), the loop of journal_write.c over any limits, journal_read.c within one changeset (JserModel.v); the database is the list of chunks, zone contents are lists | pieces (owner or one record) as the unit: prepare counts a prefix of the pieces, chunk writes exactly it, the reader is in a state "these pieces remain" (JserProofs*.v) |
| C19-C22 | journal_write.c, journal_metadata.c, journal_read.c and the transactions of knot_lmdb.c for one zone (JournalModel.v): changesets by serial, the zone in the journal, metadata; any failures of LMDB, of the key allocation and of the reading when merging. A stored changeset is the list of changes it is made of. What the user of the journal knows is a history (JournalSpec.v) | invariant "chain + merged changeset + metadata" and its relation to the history (JournalProofs*.v), by induction over histories; an operation gives the list of states it commits, a crash is any prefix of it |
| C23-C25 | zones as maps name -> type -> (ttl, rdata set); diff, changeset, merge, apply | extensional equality of maps |
| C26,C27 | ddns.c on that zone model: prerequisites, checks of the update section, its operations, and the loop over requests of update.c. The choice of the version of parent nodes is left open | refinement of prerequisites to RFC 2136 section 3.2; exact effects of each operation (section 3.4.2), invariants by induction over all records of all requests |
| C28 | ACL list evaluation | induction on rule list |
| C29,C30 | qp-trie as an inductive tree with nibble branching, every function of trie.c but trie_dup, trie_get_try_wildcard and copy-on-write; failures of allocation are flags | invariant + refinement to a finite map in the order of keys, over all histories; iterators are paths, refined to positions in the sorted listing |
| C31 | copy-on-write part of trie.c on an explicit heap of arrays and keys, with marks in the first element of an array; trie_get_ins and trie_del also on the heap; every allocation may fail. Calls are atomic (a reader between the writes of one call is not modelled), addresses are not reused, callbacks are NULL as in knot | invariant relating the two trees that share parts of the heap, over all histories of transactions; refinement of each call to the tree functions of C29; safety of memory and absence of leaks follow |
| C32 | bitmap windows | sets of types, nat-indexed windows |
| C33 | src/knot/dnssec/nsec-chain.c for NSEC: creation, incremental fixing and validation (full, incremental) on zones as sorted lists of nodes; a node has its types, types covered by signatures, NSEC records, and the flags of delegation points and non-authoritative nodes; bitmaps by BitmapModel (NsecModel). Not modelled: NSEC3, case of names, adjusting which sets the flags and lists the changed nodes (assumed by `edited`) | invariant along the list: new chain up to the changed node, old chain from there on; histories of updates by induction |
| C34 | array heap (1-based list) | heap invariant, permutation |
| C35 | src/knot/events/events.c with the entry of evsched.c as a transition system: one step per region guarded by events->mx, with reschedule_lock held across steps, a clock, worker tasks, dispatch, freeze/start, the user freeze and the blocking freeze (EventsModel) | invariant over all interleavings: one event at a time, the earliest allowed event starts, plans are not lost, wake-ups are neither lost nor late, frozen zones start nothing; refuted: an event may start early, the blocking freeze may hang |
| C36 | TLV timers codec | round trip by computation on fixed record + termination of reader |
| C37 | src/knot/dnssec/key-events.c (all of automatic rollover: initial keys, forced, algorithm and scheme rollovers, the choice of the next action, every action, confirmation of the submission), states of keystate.c, times of time.h, the use of keys by set_key() and walk_algorithms() of zone-keys.c (KeyModel.v). Failing key generation, deletion and saving are parameters. A history is any sequence of passing time, runs with any policy, and confirmations (KeySpec.v). Not modelled: shared KSKs, keys imported or edited by hand, offline KSK, revocation, and the writes a failing run has already done | invariant of single keys (26 clauses) and of their numbers over abstract steps, every run refines a sequence of steps (KeyProofs to KeyProofs7); for signing, an invariant pairing each KSK that is to take over with a ZSK of its algorithm, with in-between cases within a run (KeyProofs8, KeyProofs9); for the delays, a relation between the keys before and after each step that composes over the run (KeyProofs10) |
| C38 | catalog_update.c (adding, conflicts, finalization, commit), the lookups of catalog_db.c, the changes made from catalog zones by interpret.c (CatalogModel.v): the update and the database as maps by member name, any failures of allocation and of LMDB. Who a zone belongs to is a fold over the changes (CatalogSpec.v). Not modelled: the generation of catalog zones, catalog_zone_verify(), the LMDB encoding | invariant over the histories of changes, replacements and commits |
| C39 | refresh.c: the state machines of incoming IXFR and AXFR, the choice between them, the size limit, publication (checks and the serial bump are parameters; no signing, no ixfr-from-axfr) | invariant over the records relating the state to a prefix of the grammar (soundness), simulation of every well-formed answer (completeness), for any division into messages; changesets refined to sets of records; chaining of serials refuted |
| C40 | query answering (internet.c) as a state machine over the zone model, with the packet and the memory as unknown functions | at most five aliases are followed: measure on the counter, for every behaviour of the packet |
| C41 | control.c with both buffers, on a byte stream whose system calls end as a script says (short reads and writes, interruptions, waiting, failures; net.c) | invariant of the stream on both sides, composed over all units |
| C42 | yptrafo.c: all kinds of values but YP_TDATA (numbers with units, booleans, options, strings, addresses, networks, names, hexadecimal and base64 data, references), both directions with the output buffer and quotes; inet_pton is a parameter which must read the texts of RFC 4291, inet_ntop (musl) is modelled | inversion of each reader to the data it can give, the printed text of these data, the reader on that text; values against a specification of the texts |
| C43-C45 | base64/base32hex/base64url | group induction, finite sweeps by vm_compute |
| C46,C47 | unreachable list / connection pool arrays | history induction |
| C48 | wire_ctx | invariant over op lists |
| C49 | OPT options | codec |
| C50 | cookies | arithmetic mod 2^32, SipHash as section variable |
| C51 | PROXYv2 | codec |
| C52 | node rrs array | refinement to a map |
| C53 | LMDB wrapper over sorted association lists with a fault oracle per LMDB call | simulation of the faulty run by the fault-free one |
| C54 | socket addresses as byte lists | numbers of the addresses as the specification |
| C55 | trees of a zone as association lists of nodes with counters of children | invariant with the list of nodes not linked yet, induction on names and histories |
| C57 | heap with arrays and data blocks, two halves of a node with sharing | ownership invariant (every block owned by exactly the halves that use it), history induction over operations, commits and rollbacks |
| C58 | the same, with the search for the closest encloser in the order of trie keys, the flags of adjust.c and the wildcard flag as a state | specification `resolves` after RFC 1034/4592/6672 (AnswerSpec.v); refinement step by step, invariant of the duplicates and wildcards seen |
| C59 | composition of the models of C12 (PutModel.v) and C13 (PktparseModel.v); conditions on OPT and TSIG in MsgSpec.v | the invariant of C12 gives a message in the sense of C13 (MsgProps.v) |
| C60 | SignModel.v: zone-sign.c and rrset-sign.c, node by node, with the threads; the cryptography is a parameter of which only `crypto_ok` is assumed; SignSpec.v says what a signed node is | invariants of the loops over keys, RRsets, nodes and threads (SignProofs*.v, SignProps.v) |
| C61 | SignModel.v: the validation mode of the same functions, with the map of 8-bit counters | the map counts the failures of each signature, so acceptance is equivalent to a condition on signatures (SignProofs5.v, SignProps.v) |
| C62 | TcpModel.v: knot_tcp_inbufs_upd() with its two allocations, which may fail; TcpSpec.v has frames and incomplete frames | every octet list splits into frames and an incomplete rest in one way; the counting and the copying loop follow this split; the allocation size is a power of two by a bitwise argument (TcpProofs.v, TcpProps.v) |
| C63 | TcpModel.v: the queue of outgoing pieces and one connection, with replies, sendings and confirmations as events; TcpSpec.v says where a segment belongs in the stream | an invariant over all events: sent pieces, then unsent ones, with sequence numbers that follow (TcpProofs2.v, TcpProps.v) |
| C64 | DerModel.v: the reader and writer of DER, big numbers and the conversions of ECDSA signatures; DerSpec.v says what DER and RFC 6605 demand | both conversions against the numbers encoded, and both round trips, by induction on octets (DerProps.v) |
| C65 | KaspModel.v: the operations of the key database over the model of LMDB; KaspSpec.v: a database of facts about zones, keys and policies, and histories of operations | refinement: the sorted pairs represent the facts after every history, with any failure of LMDB, by prefix-freeness of names and strings (KaspProofs.v to KaspProofs4.v, KaspProps.v) |
| C66 | DenialModel.v: the search for one name and the NSEC records put to the authority section, on the zones of C33; DenialSpec.v: what a record proves to a validator, from the record alone | the search and the walk to the previous member give the record around the name, by the order of names below others and the closed chain of C33; every outcome is characterised (DenialProofs.v to DenialProofs5.v, DenialProps.v). Following CNAME and DNAME, NSEC3 and truncation are not modelled |
| C67 | src/knot/common/fdset.c and fdset.h in the variant for epoll, with the kernel as its interest list and the loop of tcp-handler.c:310-357 with any handler (FdsetModel.v; kqueue and poll are not modelled) | specification by descriptor (FdsetSpec.v); invariant relating the arrays, the interest list and the marks of removal, kept by every operation; induction over histories |
| C68 | src/knot/zone/measure.c with its use in adjust.c and knot_rrset_size (MeasureModel.v); which nodes an update touches is a parameter, with the condition that the others are unchanged | sums and maxima over lists of names compared by their supports; induction over histories of a load and updates |
| C69 | src/knot/zone/adds_tree.c, binode_additionals_unchanged, the dynamic array, and the lookup of discover_additionals (AddsModel.v); the trie is a sorted list | the index as a relation between keys and nodes, kept by every operation; prefixes of keys are intervals; injectivity of the keys for names without zero octets; induction over histories |
| C70 | src/contrib/json.c without jsonw_double (JsonModel.v); the stream is a list of octets | a separate reader of JSON (a lexer and a descent over tokens, JsonSpec.v); induction over the document: each value extends the text by something that lexes to tokens which the reader takes as that value, whatever follows |
| C71 | adding, sending and acknowledging on one stream of src/libknot/quic/quic_conn.c and the choice of data in knot_quic_send (QuicModel.v); pointers to buffers are indices; ngtcp2 is any choice of how much it takes and what is acknowledged | invariant over histories: the buffers are the end of what was added, and the index with the offset is the position of what was sent |
| C72 | src/knot/zone/zonedb.c and answer_zone_find (ZonedbModel.v); the trie is a list of keys with values | served zones as an inductive relation on the history; injectivity of keys; induction over the labels of the name |
| C56 | zone_update_add/remove with the recorded changeset | per-cell view of zone and changeset, history induction |

## Trusted base

Coq 8.16.1 kernel (and vm_compute). Per-theorem `Print Assumptions` results are listed at the end of this
file (all theorems are intended to be closed under the global context). The correspondence of
the hand-written model to the C text is by inspection; every definition cites its source.
Not modelled in general: memory allocation failure (malloc always succeeds unless stated),
thread interleavings inside lock-protected sections, LMDB internals, cryptographic primitives,
operating system calls.

### Modelled

The files of /repo that each model file cites. The citations at the definitions give the lines; only the cited functions are
modelled, not the whole files.

* `Base.v`: libknot/errcode.h
* `SerialModel.v`: knot/conf/schema.h, knot/conf/tools.c, knot/zone/serial.c, knot/zone/serial.h
* `DnameModel.v`: contrib/ctype.h, contrib/tolower.h, libknot/consts.h, libknot/dname.c, libknot/packet/wire.h
* `RdatasetModel.v`: libknot/rdata.h, libknot/rdataset.c, libknot/rdataset.h
* `CodecModel.v`: contrib/base32hex.c, contrib/base64.c, contrib/base64url.c
* `HeapModel.v`: contrib/ucw/heap.c, contrib/ucw/heap.h, knot/common/evsched.c
* `WireModel.v`: contrib/wire_ctx.h
* `LmdbModel.v`: knot/journal/knot_lmdb.c, knot/journal/knot_lmdb.h
* `TimersModel.v`: knot/zone/timers.c, knot/zone/timers.h
* `SockaddrModel.v`: contrib/sockaddr.c
* `UnreachModel.v`: knot/common/unreachable.c, knot/common/unreachable.h
* `ConnPoolModel.v`: contrib/conn_pool.c, contrib/conn_pool.h, contrib/time.h
* `BitmapModel.v`: libdnssec/nsec/bitmap.c, libdnssec/nsec/nsec.c
* `EdnsModel.v`: libknot/rrtype/opt.c, libknot/rrtype/opt.h
* `CookiesModel.v`: contrib/string.c, libknot/cookies.c, libknot/cookies.h
* `Proxyv2Model.v`: contrib/proxyv2/proxyv2.c, knot/server/proxyv2.c
* `NodeModel.v`: knot/zone/node.c, knot/zone/node.h
* `AclModel.v`: knot/conf/conf.c, knot/nameserver/process_query.c, knot/updates/acl.c, knot/updates/acl.h
* `ZoneModel.v`: knot/updates/apply.c, knot/updates/changesets.c, knot/updates/changesets.h, knot/updates/zone-update.c, knot/zone/contents.c, knot/zone/contents.h, knot/zone/node.h, knot/zone/zone-tree.c, libknot/rrset.c, libknot/rrtype/rrsig.h
* `UpdateModel.v`: knot/updates/zone-update.c, knot/zone/contents.c
* `DiffModel.v`: knot/zone/zone-diff.c, libknot/rrtype/soa.h
* `BinodeModel.v`: knot/updates/apply.c, knot/zone/node.c, knot/zone/node.h
* `DdnsModel.v`: knot/events/handlers/update.c, knot/updates/ddns.c, knot/zone/node.h, knot/zone/zone-tree.c, libknot/consts.h, libknot/descriptor.c, libknot/descriptor.h, libknot/rrset.c
* `CtlModel.v`: contrib/net.c, libknot/control/control.c
* `AnswerModel.v`: knot/dnssec/rrset-sign.c, knot/nameserver/internet.c, knot/nameserver/internet.h, knot/nameserver/process_query.c, knot/zone/adjust.c, knot/zone/contents.c, knot/zone/node.h, knot/zone/zone-tree.c, libknot/consts.h, libknot/dname.c, libknot/dname.h, libknot/packet/pkt.c, libknot/rrtype/rdname.h
* `XfrModel.v`: knot/events/handlers/refresh.c, knot/journal/journal_write.c, knot/nameserver/ixfr.h, knot/query/layer.h, knot/query/requestor.c, knot/updates/zone-update.c, knot/zone/node.h, knot/zone/zonefile.c, libknot/dname.c, libknot/rrset.c
* `TrieModel.v`: contrib/qp-trie/trie.c
* `RrwireModel.v`: libknot/descriptor.c, libknot/descriptor.h, libknot/packet/compr.h, libknot/packet/rrset-wire.c, libknot/rrset.c, libknot/rrtype/naptr.c
* `ComprModel.v`: contrib/wire_ctx.h, libknot/dname.c, libknot/packet/compr.h, libknot/packet/rrset-wire.c, libknot/packet/wire.h, libknot/rrtype/rrsig.h, libknot/rrtype/soa.h
* `PutModel.v`: libknot/packet/pkt.c, libknot/packet/wire.h
* `PktparseModel.v`: knot/query/requestor.c, libknot/packet/pkt.c, libknot/rrtype/tsig.c
* `EventsModel.v`: knot/common/evsched.c, knot/events/events.c, knot/events/handlers/freeze_thaw.c
* `JserModel.v`: knot/journal/serialization.c, knot/updates/changesets.h, knot/zone/contents.h, libknot/rrset.h
* `JournalModel.v`: knot/journal/journal_basic.c, knot/journal/journal_metadata.c, knot/journal/journal_metadata.h, knot/journal/journal_read.c, knot/journal/journal_write.c, knot/journal/knot_lmdb.c, knot/journal/knot_lmdb.h
* `CatalogModel.v`: knot/catalog/catalog_db.c, knot/catalog/catalog_update.c, knot/catalog/catalog_update.h, knot/catalog/interpret.c, knot/updates/zone-update.c
* `TsigModel.v`: knot/nameserver/process_query.c, knot/nameserver/tsig_ctx.c, knot/query/requestor.c, libdnssec/shared/dname.c, libdnssec/tsig.c, libdnssec/tsig.h, libknot/packet/rrset-wire.h, libknot/rrtype/tsig.c, libknot/tsig-op.c, libknot/wire.h
* `TrafoModel.v`: contrib/ctype.h, contrib/musl/inet_ntop.c, contrib/wire_ctx.h, libknot/yparser/ypschema.h, libknot/yparser/yptrafo.c
* `NsecModel.v`: knot/dnssec/nsec-chain.c, knot/dnssec/zone-nsec.c, knot/updates/zone-update.c, knot/zone/adjust.c, knot/zone/node.h, knot/zone/zone-tree.c, libdnssec/nsec/bitmap.c, libknot/rrtype/nsec.h
* `TrieCowModel.v`: contrib/qp-trie/trie.c
* `KeyModel.v`: contrib/time.h, knot/dnssec/kasp/keystate.c, knot/dnssec/key-events.c, knot/dnssec/zone-keys.c
* `SignModel.v`: knot/dnssec/rrset-sign.c, knot/dnssec/zone-sign.c, libdnssec/sign/sign.c, libknot/descriptor.h
* `TcpModel.v`: libknot/xdp/tcp.c, libknot/xdp/tcp_iobuf.c
* `DerModel.v`: libdnssec/error.h, libdnssec/shared/bignum.c, libdnssec/sign/der.c, libdnssec/sign/sign.c
* `KaspModel.v`: knot/dnssec/kasp/kasp_db.c, knot/dnssec/kasp/policy.h
* `DenialModel.v`: knot/nameserver/internet.c, knot/nameserver/nsec_proofs.c, knot/zone/adjust.c, knot/zone/contents.c, knot/zone/node.h, knot/zone/zone-tree.c, libknot/dname.c, libknot/dname.h
* `FdsetModel.v`: knot/common/fdset.c, knot/common/fdset.h, knot/server/tcp-handler.c
* `MeasureModel.v`: knot/updates/apply.h, knot/zone/adjust.c, knot/zone/contents.c, knot/zone/measure.c, knot/zone/measure.h, libknot/rrset.c
* `AddsModel.v`: knot/updates/zone-update.c, knot/zone/adds_tree.c, knot/zone/adjust.c, knot/zone/contents.c, knot/zone/node.c, knot/zone/node.h, libknot/descriptor.c, libknot/dname.c, libknot/dname.h, libknot/dynarray.h
* `JsonModel.v`: contrib/json.c, contrib/json.h, utils/common/exec.c
* `QuicModel.v`: libknot/quic/quic_conn.c, libknot/quic/quic_conn.h, libknot/quic/quic.c
* `ZonedbModel.v`: knot/zone/zonedb.c, knot/zone/zonedb.h, knot/nameserver/process_query.c, contrib/qp-trie/trie.c, libknot/dname.c

### Not modelled

* The parser of zone files (src/libzscanner), the configuration (src/knot/conf) apart from the
  few functions cited above, the utilities in src/utils apart
  from the JSON writer they use, the modules in src/knot/modules, and the GeoIP database.
* QUIC apart from the outgoing data of one stream, TLS, and XDP apart from its TCP (src/libknot/quic, src/libknot/xdp, src/knot/server).
* Cryptography: hashes, HMAC, signatures and their verification are functions or relations given as parameters of the theorems.
* LMDB inside: a transaction is an atomic change of a map (LmdbModel.v); the properties of the journal state their crash points.
* The kernel and libc: sockets, files, epoll are small state machines or arguments of the theorems that range over all results.
* Concurrency, except where a property is about interleavings (the rows say so, for example C34 and C35).
* Failing allocations, except where the row or the theorem says so.

## Findings (statements that are false of the faithful model, with machine-checked witnesses)

* C04 `c04_cmp_canonical_refuted`: names whose labels contain zero bytes can compare equal although
  different (`b.a.` and `a\000b.`), because the lookup format separates labels by zero bytes.
* C05 `c05_replace_suffix_refuted`, `c05_replace_suffix_overlong_refuted`: replacing the whole name
  returns NULL; the result is not limited to 255 bytes.
* C17 `c17_next_defined_refuted`, `c17_modulus_256_refuted`, `c17_next_greater_refuted`.
* C08 `c08_merge_failure_refuted`: a merge that fails midway leaves the records merged so far.
  `c08_remove_failure_refuted`: a removal whose shrinking realloc fails has already moved the records
  and leaves a set with a duplicate.
- C43/C44: `base64_decode` and `base32hex_decode` keep the padding length of one group for the next ones, so padding in the middle of a text ("QUI=QUJDQUJD") is accepted and bytes are dropped (`c43_padding_inside_refuted`, `c44_padding_inside_refuted`).
- C45: `base64url_decode` reads one byte behind an input whose length is 1 modulo 4 (`c45_decode_safe_refuted`), and that byte can decide acceptance (`c45_reads_behind_refuted`). A zero byte inside the input acts as padding.
- C34: `evsched_cancel` zeroes the event time after releasing the lock. If another thread schedules the event in between, the event sits in the heap with time 0 and is delivered early (`c34_cancel_race_refuted`). A failing realloc in `heap_insert` loses the array, and `evsched_schedule` ignores the failure (`c34_alloc_failure_refuted`).
- C48: `wire_ctx_printf` accepts a text exactly as long as the room although vsnprintf cut its last character (`c48_printf_truncated_refuted`), and it checks neither the error nor the read-only flag (`c48_printf_ignores_error_refuted`). `wire_ctx_skip` negates its argument, undefined for the smallest ssize_t (`c48_skip_min_refuted`).
- C53: `knot_lmdb_copy_prefixes` commits what was copied so far although reading the source failed (`c53_copy_prefixes_atomic_refuted`). `knot_lmdb_unmake_key` accepts data that end at a field boundary and leaves the remaining outputs unset (`c53_unmake_short_refuted`); string, name and data fields are read past the end of a short value (`c53_unmake_overread_refuted`).
- C36: a stored record with the master's identifier and 9 to 27 bytes behind it makes `deserialize_timers` loop forever (`c36_read_terminates_refuted`). The pin time is lost when no master address is known (`c36_round_trip_refuted`). `zone_timers_read` ignores the error of deserialisation. A failed allocation of the value makes LMDB reserve uninitialised space.
- C46: a report made when the 32-bit millisecond clock is zero never expires (`c46_expires_zero_refuted`), and an old report that nobody looked at comes back to life after 2^32 ms (`c46_expires_wrap_refuted`).
- C54: IPv4 addresses are compared as little-endian integers (`s_addr` in network order), so a range such as 10.0.0.1-10.0.0.5 contains 10.77.88.3 and 10.0.0.200-10.0.1.100 does not contain 10.0.0.201 (`c54_range_v4_refuted`). On big-endian machines the comparison would be right.
- C49: adding an option computes the new length in 16 bits; when the options would exceed 64 KiB the code fails its assertion or overruns memory (`c49_add_overflow_refuted`). If the allocation fails, the options present before are lost (`c49_add_nomem_refuted`). Lookup returns the first option with a code, the option table the last one (`c49_get`, `c49_options`).
- C50: the time window of server cookies is computed modulo 2^32 and compared without serial arithmetic: when the clock plus the permitted skew passes 2^32, or the clock is smaller than the lifetime, valid cookies are refused (`c50_wrap_refuted`). `c50_lifetime_partial` excludes these clock values.
- C51: the address block of a PROXYv2 header is not compared with the header length: with a header announcing family 0x12 and length 0 the client address is taken from the DNS message (`c51_address_from_message_refuted`). Headers for stream transports written by the client tools are refused by the server (`c51_tcp_refuted`).
- C52: when memory for record data runs out, add_rrset_no_merge has already moved the entries: one is lost and another is there twice, with a NULL pointer and a nonzero count (`c52_nomem_refuted`). Adding an empty RRset stores an empty entry (`c52_add_empty_refuted`); `c52_add` therefore assumes a non-empty one, as all callers do.
- C28: `match_names` (acl.c:112) takes a configured owner name for absolute if its last byte is zero. A relative name whose last label ends with a zero byte (`\000`) is therefore not completed with the zone name and is read behind its end (`c28_relative_null_refuted`). Also visible in the statements: an owner restriction `update-owner: key` is vacuous for unsigned requests, `update-owner: name` without names is vacuous, and a rule without actions that concerns a non-query request refuses it at once.
- C24: merging does not keep the TTL of signatures: RRSIGs cancel whatever their TTL (`c24_rrsig_ttl_refuted`); changesets whose removal carries another TTL than the zone can leave one record in both halves of a merge (`c24_disjoint_refuted`). `c24_compose` therefore compares records of all types and TTLs of all types but RRSIG, for changesets that apply strictly and carry the TTLs of the zone.
- C56: in the lenient mode (used by dynamic updates and signing) adding a record that is already there leaves the zone as it is but is recorded as an addition. Removing that record later only cancels the recorded addition. The zone loses the record and the changeset does not tell (`c56_lenient_refuted`).
- C56: adding a record with another TTL changes the TTL of the whole RRset, which is not recorded for the records that were there. Adding and removing it again leaves an empty changeset and a changed TTL (`c56_ttl_refuted`).
- C23: two zones with the same serial whose SOA records differ in other fields are reported as not different (`c23_soa_refuted`).
- C23: a signature RRset with another TTL and the same records is not part of the difference (`c23_rrsig_ttl_refuted`).
- C57/C25: if the allocation of the array of RRsets fails in `binode_prepare_change`, the new version keeps its count with a NULL array, and the rollback that follows reads through NULL (`c57_nomem_refuted`). `c57_rollback_partial` therefore assumes that this first allocation succeeds.
- C57: when the copy of record data fails during an addition, the new version of the node is left with a moved array (see C52); the rollback restores the published version all the same.
- C26: a prerequisite with the class of the zone, TTL 0 and type ANY is not refused as malformed. It is stored, and the later comparison fails `assert(rrset->type != KNOT_RRTYPE_ANY)` (`c26_any_refuted`).
- C26: if a name has both a normal node and an NSEC3 node, only the normal one is looked at (`c26_tree_refuted`). `c26_iff` assumes one of them for the names in the message.
- C27: a DNAME may be added below a DNAME, where other records are refused (`c27_dname_refuted`). Two NSEC3PARAM records in one message cancel each other (`c27_nsec3param_refuted`). Adding a record that is there with another TTL leaves the TTL, although RFC 2136, section 3.4.2.2 asks to replace it (`c27_ttl_refuted`).
- C27: the search for a DNAME above a name follows `node->parent` directly, which may lead to the version of the parent from before the update. The model leaves the choice of the version open (`old`), and all theorems hold for any choice.
- C41: a string over 65535 bytes makes `knot_ctl_send` fail with KNOT_ERANGE after the code of the item was put in the output buffer; the next unit, although sent with success, does not arrive (`c41_too_long_refuted`). A `knot_ctl_receive` that timed out inside a unit cannot be repeated: `ensure_input` moved the data but keeps the old position, and even a unit that was never sent may be reported (`c41_repeat_refuted`). The theorems speak about everything up to the first error.
- C58: adding an NSEC3 record (or a signature of one) whose owner is the wildcard directly below the apex sets NODE_FLAGS_WILDCARD_CHILD of the apex, because the apex is the parent in both trees (zone-tree.c:249-254). A query for a name below the apex that does not exist then looks up a wildcard node that is not there, and fails an assertion or reads through NULL. Removing such a record clears the flag although a real wildcard may exist: its names are answered with NXDOMAIN (`c58_nsec3_wildcard_refuted`). `c58_answer_partial` and `c40_ends` therefore assume a history without NSEC3 nodes of that name.
- C58: when the name made from a DNAME is too long, the rcode becomes YXDOMAIN but the target of the DNAME is followed as if it were an alias: records of an unrelated name are added, or the rcode is overwritten with NXDOMAIN (`c58_overlong_refuted`).
- C58: a DNAME owned by a wildcard that answers a question for DNAME after an alias has the wildcard as its owner in the response (`c58_wild_dname_refuted`).
- C58 (not modelled): the flag for null bytes in the query name is kept for the targets of aliases, so a target whose presence of null bytes differs is searched for in the wrong way. `wildcard_visit` does not check the result of its allocation.
- C39: the SOAs of the differences are not compared with anything. Removing an SOA is a no-op, only its replacement counts (zone-update.c:540-542), so without signing an IXFR whose differences start from another serial than the local one, do not follow each other, or end with another serial than the SOA the answer began with, is applied even in strict mode (`c39_chain_refuted`): the zone ends with a serial the primary never announced. The journal asks only that the serial grows. The theorems about incremental transfers therefore say that each difference fits the records (`fits`), not that serials chain.
- C39: records outside of the zone are skipped in both kinds of transfers, and everything behind the last SOA in the same message is ignored. An AXFR ends with any SOA record, whatever its owner and data, once the apex has an SOA (refresh.c:434-437): it is not compared with the first one (`axfr_form` says so).
- Seeded edits: `failed` in seeded/LOG.jsonl names the lemma at which the build stopped and the theorems that use it, found from the names in the proof texts and the imports of the files. It is not the result of a build of every theorem on its own. Earlier lines listed some theorems of unrelated files that use a lemma of the same name; these were removed.
- C29: `trie_it_next_nosuffix` is broken: ns_next_leaf tests `hastwig` on the child instead of the parent (trie.c:791), so the assertion inside fails whenever the child is a leaf (`c29_nosuffix_refuted`). Nothing outside trie.c calls it.
- C29: mkleaf accepts a key of 2^31 bytes, but the length field has 31 bits, so the stored key is empty (`c29_longest_key_refuted`). All other theorems assume keys shorter than 2^31 bytes.
- C29: when growing the stack of an iterator fails, the iteration ends silently (documented in trie.h); `c29_iterate` and `c29_navigate` state this case. `trie_dup` of an empty trie leaves the root of the copy uninitialised (not modelled; harmless, since weight 0 is tested first everywhere).
- C14: refuted (`c14_rdlength_refuted`). parse_rdata compares the length of the *decompressed* RDATA with RDLENGTH (rrset-wire.c:691-694), so up to as many octets as decompression added may follow the last field and are ignored. The same comparison refuses a record whose RDATA is a pointer to the root (two octets, one when decompressed), hence the condition of `c11_parse_complete`.
- C11: a failure of rrset_to_canonical inside knot_rrset_rr_from_wire would clear the RRset and return KNOT_EOK (rrset-wire.c:726-733). `c11_parse_safe` shows that it cannot fail after a successful parse, other than by its own allocation, which is not modelled (knot_dname_to_lower works in place).
- C12: when writing of a record set fails with KNOT_ESPACE, the suffix for compression may already point into the data that are discarded (`c12_failed_put_refuted`); a later put would then compress against octets that are not in the message. Inside knot the error ends the writing (put_additional, put_answer stop), so it is not reached.
- C12: `knot_pkt_put_question` ignores reserved space, so the remaining space can wrap below zero (`c12_reserve_question_refuted`). After `knot_pkt_begin(AUTHORITY)` it writes the question but returns KNOT_EINVAL. `knot_pkt_clear` does not reset the size of QNAME.
- C09: the hint KNOT_COMPR_HINT_NOCOMP has the value 1 and would be written as a pointer to offset 1 for an owner other than the root, if it were passed for the owner.
- C10: with the flags for ORIGTTL or SOAMINTTL, empty RDATA of RRSIG or SOA are read out of bounds; the model has UB there and the theorems assume RDATA that fit their type.
- C13: after a TSIG was removed from the message, the parser continues at the same place and reads the TSIG again, which is refused as a second one. So records behind a TSIG lead to KNOT_EMALF or another error in every case (`stripped_read`), and the check that TSIG is the last record matters with KNOT_PF_KEEPWIRE only.
- C13: `knot_pkt_parse` resets the sections but not the number of records, so parsing a packet a second time appends; the model starts with a new packet. `knot_edns_get_options` does not check its allocation (the model assumes it succeeds). `opt_rr` points into the array of records; parsing reserves it in advance, so that it does not move.
- C35: `event_wrap` runs the earliest event without looking whether its time has come. If the event that caused the dispatch is cancelled before the worker takes the task (or the scheduler entry is stale, because `reschedule` does not cancel it when nothing is planned), the next event is executed at once however far it is planned, for example expiration (`c35_not_early_refuted`).
- C35: `reschedule` passes `diff * 1000` to a uint32_t, so an event planned more than 49.7 days ahead is executed early (`c35_far_plan_early_refuted`); SOA EXPIRE may be up to 68 years.
- C35: when a worker finds no event to run, it clears `running` without signalling `run_end`, so `zone_events_freeze_blocking` may sleep for ever (`c35_freeze_wait_refuted`). In the same case `blocking[-1]` is read. `zone_events_freeze` does not stop a task that was already assigned.
- C35 (read, not modelled): a thread in `schedule_blocking` hangs if its event is cancelled or the zone is frozen by the user; `evsched_schedule` ignores failure of heap_insert; `zone_events_deinit` takes the heap lock under `mx` while the scheduler thread takes `mx` under the heap lock.
- C18: a piece (one record or one owner) larger than the chunk limit ends the serialization silently (`chunk.mv_size == 0` means the end) and the rest of the changeset is lost with success (`c18_too_large_refuted`). With the limits of journal_basic.h no legal record is so large (`c18_stored` has no such hypothesis).
- C18: `journal_read_rrset` copies the owner name and the RDATA before the lengths are checked against the chunk, so a damaged database makes it read behind the chunk (`c18_corrupt_refuted`). An RRset with no record would lose its TTL (the model requires one record at least, as zones hold no empty RRsets).
- C19-C22: the theorems about histories assume `allowed` (JournalSpec.v) before each operation and no failure of memory allocation; the following histories of successful operations show why (all in JournalProps.v).
- C20: with the depth limit reached and the zone in the journal, a change that does not follow the last serial is accepted after everything else was deleted or merged, instead of KNOT_ESEMCHECK: journal_metadata_after_delete clears JOURNAL_SERIAL_TO_VALID, and the check of continuity needs it. The zone loaded afterwards lacks the last change (`c20_discontinuity_refuted`).
- C21: when the serial comes around to the beginning of the merged changeset, journal_insert notices (journal_contains) but removes nothing, and reading from the zone file ends with KNOT_ELOOP (`c21_serial_wrap_refuted`).
- C22: with zonefile-sync disabled, a zone file written on demand after a merge marks everything as flushed but keeps the merged changeset, which starts from the older zone file. The next merge appends the new changes to it although the chain in between may have been deleted; the changes since the new zone file are lost (`c22_forced_flush_refuted`).
- C22: journal_try_flush deletes the merged (extra) changeset and commits before the zone file is written. A crash in between loses the way from the zone file to the journal (`c22_flush_deletes_merged_refuted`).
- C19: an extra changeset that starts from a serial inside the chain overwrites the changeset stored there (`c19_extra_refuted`).
- C19: zone in the journal, KNOT_EBUSY returned, and the flush not done before the next insert: the zone was merged up to the last serial, but flushed_upto was not moved, so the next deletion fails `assert(md->flushed_upto == md->serial_to)` (`c19_assertion_refuted`).
- C20: journal_merge ignores that the first changeset cannot be read (no memory, or damaged data): changeset_to() dereferences NULL (`c20_merge_unreadable_refuted`).
- C20: no memory in journal_serial_to() for the zone in the journal is stored in txn->ret, which journal_merge then overwrites by its own result. The merge is done as if there were no zone in the journal, and the insertion is successful (`c20_no_memory_refuted`).
- C22: with journal-max-depth 1 and zonefile-sync disabled the second change is always refused with KNOT_ESPACE (`c22_depth_one_refuted`).
- C19-C22 (read): journal_insert_zone leaves flushed_upto 0, which is harmless as long as the zone is in the journal. With an extra changeset, `max_usage - size` may wrap, and the usage limit is then ignored. The occupied space and the serialized sizes are inputs of the model, so the usage limit itself is not a theorem.
- C38: the changes of a catalog zone that add a group property are not checked against the catalog database. A catalog that lists a zone of another catalog (which is ignored) and then only changes its group gets the zone: the pending property is accepted by check_member() without any checks, and the commit overwrites the owner and the catalog (`c38_steal_refuted`).
- C38: a zone moves from A to B, both changes are in one batch, and B is processed before A. The removal by A is refused as that of a wrong member node, the addition by B becomes invalid, and the zone stays a member of A, which does not list it any more (`c38_stale_refuted`).
- C38: a changed group, a removal and a new addition of the same member before they are processed: rem_owner is NULL and the assertion in get_uniq() fails (`c38_crash_refuted`).
- C38: the PTR record of a member node is replaced and its group stays: the new member has no group (`c38_group_lost_refuted`).
- C38: a replaced or purged catalog zone removes just its members in the database, an addition which waits stays there (`c38_replaced_refuted`).
- C38: a member that gets into the configuration stays a member if a conflicting change of it waits (`c38_configured_refuted`).
- C38 (read): catalog_update_to_zone() loops forever (`continue` without moving the iterator) if add_owner is NULL. A group given with an addition is ignored when a removal waits. catalog_update_clear() follows also a failed commit, whose changes are lost.
- C15: the algorithm named by the TSIG record is used for the length of the MAC and is not compared with the algorithm of the key. A record naming hmac-md5 is accepted with the first 16 octets of the HMAC-SHA-256 (`c15_algorithm_refuted`), and a record naming an algorithm with a longer MAC than that of the key makes memcmp read octets of the stack which were never written (`c15_defined_refuted`). The server compares the algorithms earlier (the ACL) and the requestor compares the length afterwards; kdig does neither.
- C15: knot_tsig_sign_next ignores the failure of creating the RDATA: the count of additional records is incremented, no TSIG record is written, and the result is success (`c15_sign_next_refuted`).
- C15 (read): an answer without TSIG is passed to the consumer before the number of unsigned messages is checked, so up to 99 messages and also the last one act before the final check refuses the stream. Fudge 0 or time 0 are always BADTIME. A time of 2^48 s or more is truncated when written.
- C42: hexadecimal data which are printable and begin with "0x" are printed as they are, so "0x30783331" (the data "0x31") is printed as 0x31 and read as other data, and "0x30787a7a" is printed as a text that is refused (`c42_hex_round_trip_refuted`, `c42_hex_unreadable_refuted`).
- C42: "-9223372036854775808s" or "…B" for any number with units is negated in remove_unit before the range is checked, which overflows a signed integer (`c42_number_defined_refuted`).
- C42: a string with a zero inside keeps it in the data and loses the rest when it is printed (`c42_zero_in_string_refuted`).
- C42 (read): booleans are compared by strncasecmp with the length of the text, so "", "o", "t", "fal" are accepted (`c42_bool_value` gives exactly the beginnings of words). An IPv6 address in a range or before a mask is taken for a link-local one if a percent sign follows anywhere later. The length of hexadecimal data is written modulo 2^16 (buffers over 65537 octets are outside the theorems).
- C33: incremental validation (knot_nsec_check_chain_fix) accepts an update which removes a name but leaves the NSEC record before it naming the removed name: only the removed node and its parents are checked, not its neighbours (`c33_check_fix_refuted`). It also accepts an NSEC record which names an empty non-terminal (`c33_check_fix_ent_refuted`). Full validation refuses both.
- C33: two NSEC records at a node of the chain make creation of the chain, so signing, fail with KNOT_EINVAL instead of replacing them (`c33_create_two_records_refuted`).
- C33: a node which lost its data but keeps a signature of other data is left in the chain without an NSEC record by fixing (`c33_fix_orphan_refuted`); signing runs before and removes such signatures, so the assumption `no_orphans` is met there.
- C37: a KSK rollover forced in the first run after single-type signing was switched off creates a KSK without a ZSK, because forced rollovers come before the scheme rollover (key-events.c:750 and 790). When this KSK is confirmed the old key is retired at once, and no key signs the zone until new keys have been published for long enough (`c37_signed_refuted`, `c37_ex_unsigned`). Hence the condition `forced_as_before` of `c37_signed_partial`.
- C37: a KSK or ZSK rollover forced in the first run after the algorithm was changed publishes a key of the new algorithm without its counterpart; loading the keys then fails with KNOT_DNSSEC_EMISSINGKEYTYPE (`c37_algorithms_refuted`). After a forced ZSK rollover this lasts forever: the old ZSK stays retire-active, running_rollover() stays true and the algorithm rollover never starts (`c37_ex_stuck_alg`).
- C37: a forced ZSK rollover of a zone with single-type signing leaves two active keys that sign the zone; running_rollover() stays true and no later rollover starts (`c37_ex_stuck_scheme`).
- C37: the propagation delay and the TTL are summed up in 32 bits before they are added to a time (`propagation_delay + saved_key_ttl`, key-events.c:333). The configuration bounds the delay by 2^31-1 but a TTL of the zone can be larger; with a sum of 2^32 a new ZSK becomes active in the run that creates it (`c37_waits_refuted`). Hence the condition `no_wrap` of `c37_waits`.
- C60: the configuration accepts an RRSIG lifetime up to 2^31-1 seconds, but from 2^31-5400 on the inception, which is 90 minutes in the past, and the expiration cannot be compared as serial numbers; rrsig_write_rdata() fails and the assertion in rrsigs_create_rdata() (rrset-sign.c:234) fails (`c60_lifetime_refuted`).
- C60: an expiration smaller than the refresh period makes the subtraction in is_expired_signature() (rrset-sign.c:372) wrap, so a signature that expired about 1970 is taken for a good one and kept (`c60_old_expiration_refuted`).
- C60: knot_check_signature() decides by the algorithm of the policy, not of the key, whether to compare a signature with a new one. With Ed25519 in the policy and an ECDSA key still in use, good signatures of that key are judged bad and replaced whenever the nodes are not marked as validated, that is after each load (`c60_other_algorithm_refuted`). Hence the condition `compare_ok`.
- C61: before 2038, knot_time_from_u32() (contrib/time.h:149) turns a 32-bit time that serial number arithmetic places before the epoch into a time near 2^64, so an expired signature is accepted (`c61_far_expiration_refuted`). Hence the condition `times_ok`.
- C61: a signature that covers a type its node does not have makes remove_standalone_rrsigs() put it into the changeset in the validation mode, too, and the assertion of zone-sign.c:673 fails (`c61_dangling_refuted`).
- C61: the counter of failures of a signature has eight bits of which the highest is the mark of success. After 128 failures the mark is set, so with 128 keys of the same tag a false signature is accepted beside a valid one (`c61_many_keys_refuted`).
- C62: an empty message whose two octets of length come in different segments is delivered only when more data come (`c62_empty_late_refuted`).
- C62: when realloc() fails in knot_tcp_inbufs_upd(), the buffer loses its memory but keeps its length (tcp_iobuf.c:199-203), and knot_tcp_recv() keeps the connection with its sequence number already advanced. The next data are then read through a null pointer (`c62_memory_refuted`).
- C63: knot_tcp_outbufs_add() leaves the beginning of a reply in the queue if memory runs out, so that the next reply is taken for its rest (`c63_memory_refuted`), and writes out of its memory if the segment size is below two (`c63_small_mss_refuted`); the server takes at least 536.
- C63: the window scale of the client is not limited to 14 (tcp.c:281), so a client can offer windows of 2^31 and more, for which the comparison of sequence numbers is not meant; from 64 on the shift is undefined. Hence the condition on windows. This was found by reading and has no theorem.
- C64: dss_sig_value_encode() lets a sequence of 127 octets pass its checks, but then the assertion `length < ASN1_MAX_SIZE` of asn1_write_header() fails (der.c:113, `c64_longest_refuted`). The two curves in use give at most 102 octets.
- C64: the reader of signatures in X.509 form accepts more than DER: needless zeroes, and numbers that X.690 reads as negative (`c64_only_der_refuted`). Its input comes from the crypto library only.
- C65: kasp_db_get_key_algorithm() takes its error code before the search (kasp_db.c:218-233), so a failure of LMDB while searching is reported as a missing key (`c65_algorithm_refuted`).
- C65: params_deserialize() subtracts the size of the extension, read from the value, from the size of the value with no check (kasp_db.c:137-179); a damaged value makes it read out of its memory (`c65_damaged_refuted`).
- C65: a key marked as combined signing key but not as key signing key can be stored, but cannot be read, and with it no key of the zone can be listed (`c65_csk_refuted`). The callers set both marks.
- C66: when a wildcard exists only because of names below it (`*.example` with data at `a.*.example` only), a query for a name it stands for is answered with missing data, but put_nsec_nodata() takes the node before the queried name and not before the wildcard (nsec_proofs.c:501-502), so nothing proves that the wildcard is empty (`c66_wildcard_ent_refuted`).
- C66: wildcard_expanded() says no for every queried name which begins with an asterisk (nsec_proofs.c:35-38). A query for `*.z.example` answered from `*.example` has no record denying the queried name, so a validator cannot accept the expansion (`c66_wildcard_qname_refuted`).
- C67: when the kernel refuses a descriptor (EPOLL_CTL_ADD fails, e.g. at the limit of watches), `fdset_add` returns an error but has already counted the entry (`c67_room_refuted`). The TCP handler closes the connection, and the next one gets the same number. Later removals may move the stale entry and tell the kernel to report the new connection under its index, so that its TLS context is lost (`c67_mixed_refuted`); when it expires, `fdset_sweep` tries to remove the stale entry for ever, and the thread hangs (`c67_sweep_refuted`). The theorems therefore assume that the kernel has room.
- C67 (not modelled): when the allocation in `fdset_poll` fails, `it->dirty` is left uninitialised (fdset.c:211-216), and `fdset_it_commit` reads it.
- C69: an incremental update that adds or removes a name between a wildcard and a name mentioned by an MX (or NS, SRV, SVCB, HTTPS) record does not find the node with that record. With `*.x. A`, `m.x. MX b.a.x.` and an update that adds `a.x. TXT`, answers for `m.x. MX` go on carrying the address of the wildcard for `b.a.x.`, which does not exist any more; a reload gives other additional records. In the other direction (removal of `a.x.`) the address is missing. src/knot/zone/adds_tree.c:311 looks below touched wildcards only, not below other touched names (`c69_encloser_refuted`).
- C69: when memory runs out in add_node_to_a_t, the entry stays NULL in the trie and additionals_tree_free, called on the error, dereferences it (src/knot/zone/adds_tree.c:34-41, 114-118; `c69_null_refuted`). A failed growing of the dynamic array is ignored and drops all nodes of that name from the index (`c69_growth_refuted`).
- C69: a node that mentions the name of its own NSEC3 loses both references when the record is removed (`c69_self_refuted`).
- C70: the JSON writer does not escape control characters other than NUL, which JSON forbids in strings. `kdig +json` writes the text of an extended DNS error as the server sent it (src/utils/common/exec.c:777, without the test for printable characters that the NSID has), so a server can make the output unreadable (`c70_control_refuted`). A member with an empty name loses its name (src/contrib/json.c:128, `c70_empty_name_refuted`); the seventeenth nested block fails an assertion, or writes in front of the stack when assertions are off (`c70_depth_refuted`).
- C71: a message added to a QUIC stream when all the previous ones were sent but not yet acknowledged is never sent, because knot_quic_stream_add_data sets the pointer to unsent data only if no buffer is in memory (src/libknot/quic/quic_conn.c:485, `c71_stall_refuted`). The server adds all messages of an answer before it sends the first (src/knot/server/handler.c:91), and the last one carries FIN, so it does not meet this.
- C72: NOTIFY and UPDATE messages must name the zone exactly, but with the type DS in the question the server takes the closest zone above the name, since the rule for DS comes before the test of the kind of message (src/knot/nameserver/process_query.c:205, `c72_direct_refuted`). The type in the zone section of an UPDATE is not checked to be SOA. Two zones whose names differ only in a zero octet in place of the end of a label share one entry, and the later one replaces the earlier (`c72_zero_refuted`).

## Assumptions of each theorem

`Print Assumptions` prints "Closed under the global context" for every one of the 524 theorems below, which are all the theorems of
MANIFEST.json: no axioms, neither own ones nor those of the standard library. (Files of the standard library that are loaded
through others, such as Coq.ssr.ssrunder, declare axioms; no theorem depends on them.)

* `c01_check_safe_sound`, `c01_check_complete`, `c01_encoding_unique`
* `c02_unpack_after_check`
* `c03_to_str`, `c03_to_str_buffer`, `c03_from_str_exact`, `c03_from_str_buffer`, `c03_from_str_buffer_enough`, `c03_round_trip`, `c03_to_str_injective`
* `c04_cmp_canonical_partial`, `c04_canonical_total_order`, `c04_cmp_preorder`, `c04_cmp_canonical_refuted`, `c04_with_null_exact`
* `c05_in_bailiwick`, `c05_matched_labels`, `c05_common_suffix_len_meaning`, `c05_labels`, `c05_replace_suffix_partial`, `c05_replace_suffix_refuted`, `c05_replace_suffix_overlong_refuted`
* `c06_to_lower`, `c06_to_lower_idempotent`, `c06_to_lower_legal`, `c06_case_equal`, `c06_equal`
* `c07_init`, `c07_at`, `c07_canonical_form`, `c07_add`, `c07_add_order_irrelevant`, `c07_member`, `c07_eq`, `c07_subset`, `c07_merge`, `c07_intersect`, `c07_intersect2`, `c07_subtract`, `c07_remove`, `c07_copy`
* `c08_history`, `c08_limits`, `c08_merge_failure_partial`, `c08_merge_failure_refuted`, `c08_remove_failure_refuted`
* `c09_names_round_trip`
* `c10_plain_round_trip`, `c10_message_round_trip`
* `c11_parse_safe`, `c11_parse_complete`
* `c12_new`, `c12_init_response`, `c12_message_partial`, `c12_put_partial`, `c12_other_calls_partial`, `c12_failed_put_refuted`, `c12_reserve_question_refuted`
* `c13_parse_sound`, `c13_parse_complete`, `c13_message_unique`
* `c14_rdlength_refuted`, `c14_rdlength_partial`
* `c15_check_partial`, `c15_outcome_unique`, `c15_sound_partial`, `c15_sound`, `c15_sign`, `c15_sign_next`, `c15_window`, `c15_tamper`, `c15_stream_sound`, `c15_stream_complete`, `c15_answer`, `c15_request`, `c15_algorithm_refuted`, `c15_defined_refuted`, `c15_sign_next_refuted`
* `c16_compare_defined`, `c16_compare_rfc1982`, `c16_compare_antisym`, `c16_masks`, `c16_add_greater`
* `c17_next_greater_no_modulo`, `c17_next_congruent`, `c17_next_defined_partial`, `c17_next_increment_greater`, `c17_next_greater_partial`, `c17_next_defined_refuted`, `c17_modulus_256_refuted`, `c17_next_greater_refuted`
* `c18_round_trip`, `c18_stored`, `c18_rrsets`, `c18_too_large_refuted`, `c18_corrupt_refuted`
* `c19_sem_check_partial`, `c19_contiguous_partial`, `c19_no_crash_partial`, `c19_extra_refuted`, `c19_assertion_refuted`
* `c20_one_commit`, `c20_loadable_partial`, `c20_crash_points_partial`, `c20_returned_partial`, `c20_discontinuity_refuted`, `c20_merge_unreadable_refuted`, `c20_no_memory_refuted`
* `c21_ends`, `c21_zone_ends`, `c21_contiguous_partial`, `c21_serial_wrap_refuted`
* `c22_depth_partial`, `c22_nothing_lost_partial`, `c22_forced_flush_refuted`, `c22_flush_deletes_merged_refuted`, `c22_depth_one_refuted`
* `c23_exact`, `c23_left_out`, `c23_disjoint`, `c23_outcome`, `c23_soa_refuted`, `c23_rrsig_ttl_refuted`
* `c24_compose`, `c24_disjoint`, `c24_rrsig_ttl_refuted`, `c24_disjoint_refuted`
* `c25_missing`, `c25_already`, `c25_applied`, `c25_only`, `c25_rollback_partial`
* `c26_prereqs`, `c26_iff`, `c26_any_refuted`, `c26_tree_refuted`
* `c27_soa`, `c27_ns`, `c27_cname`, `c27_single`, `c27_serial`, `c27_soa_apex`, `c27_total`, `c27_delete_rr`, `c27_delete_rrset`, `c27_delete_name`, `c27_add`, `c27_add_at_cname`, `c27_add_replaces`, `c27_add_cname`, `c27_add_soa`, `c27_dname_refuted`, `c27_nsec3param_refuted`, `c27_ttl_refuted`
* `c28_first_match`, `c28_default_deny`, `c28_key`, `c28_unlisted_key`, `c28_remotes`, `c28_check`, `c28_relative_null_refuted`
* `c29_get`, `c29_insert`, `c29_delete`, `c29_listing_unique`, `c29_weight`, `c29_iterate`, `c29_navigate`, `c29_walk_from`, `c29_it_delete`, `c29_apply`, `c29_longest_key_refuted`, `c29_nosuffix_refuted`
* `c30_get_leq`, `c30_it_get_leq`, `c30_unique`
* `c31_isolation`, `c31_get`, `c31_start`, `c31_commit`, `c31_rollback`, `c31_insert`, `c31_delete`, `c31_idle_ops`, `c31_no_leak`, `c31_no_leak_open`
* `c32_contains`, `c32_contains_safe`, `c32_build`, `c32_set`
* `c33_create`, `c33_cycle`, `c33_fix`, `c33_history`, `c33_history_goes_on`, `c33_check_sound`, `c33_check_complete`, `c33_check_fix_partial`, `c33_check_fix_local`, `c33_check_fix_refuted`, `c33_check_fix_ent_refuted`, `c33_fix_orphan_refuted`, `c33_create_two_records_refuted`
* `c34_timeval_in`, `c34_head_is_minimal`, `c34_delmin`, `c34_insert`, `c34_delete`, `c34_replace`, `c34_histories`, `c34_cancel_race_refuted`, `c34_alloc_failure_refuted`
* `c35_one_at_a_time`, `c35_earliest`, `c35_not_lost`, `c35_woken`, `c35_on_time`, `c35_frozen`, `c35_freeze_wait`, `c35_frozen_unarmed`, `c35_not_early_refuted`, `c35_far_plan_early_refuted`, `c35_freeze_wait_refuted`
* `c36_read_any_partial`, `c36_read_terminates_refuted`, `c36_unknown`, `c36_write_all`, `c36_round_trip_partial`, `c36_round_trip_refuted`, `c36_absent`, `c36_old_format`, `c36_sweep`, `c36_serial_notified`
* `c37_ordered`, `c37_removed_after_retired`, `c37_states`, `c37_no_ub`, `c37_run_keeps_keys`, `c37_confirm_keeps_keys`, `c37_signed_partial`, `c37_keys_remain_partial`, `c37_signed_refuted`, `c37_algorithms_refuted`, `c37_waits`, `c37_new_waits_partial`, `c37_ksk_stays`, `c37_waits_refuted`
* `c38_sync_partial`, `c38_no_error_partial`, `c38_changes_partial`, `c38_no_steal_partial`, `c38_cancel`, `c38_unique`, `c38_error`, `c38_atomic`, `c38_steal_refuted`, `c38_stale_refuted`, `c38_crash_refuted`, `c38_group_lost_refuted`, `c38_replaced_refuted`, `c38_configured_refuted`
* `c39_unchanged`, `c39_kinds`, `c39_wellformed`, `c39_incremental`, `c39_full`, `c39_accepts_incremental`, `c39_accepts_full`, `c39_uptodate`, `c39_chain_refuted`
* `c40_ends`
* `c41_roundtrip`, `c41_complete`, `c41_send`, `c41_too_long_refuted`, `c41_repeat_refuted`
* `c42_round_trip_partial`, `c42_number_value`, `c42_number_only`, `c42_number_data`, `c42_name_value`, `c42_bool_value`, `c42_option_value`, `c42_string_value`, `c42_address_value`, `c42_address_port_value`, `c42_network_value`, `c42_network_mask_value`, `c42_network_range_value`, `c42_hex_value`, `c42_hex_refused`, `c42_hex_plain_value`, `c42_base64_value`, `c42_hex_round_trip_refuted`, `c42_hex_unreadable_refuted`, `c42_number_defined_refuted`, `c42_zero_in_string_refuted`
* `c43_encode`, `c43_decode_complete`, `c43_round_trip`, `c43_decode_safe`, `c43_decode_sound_partial`, `c43_padding_inside_refuted`
* `c44_encode`, `c44_decode_complete`, `c44_round_trip`, `c44_order`, `c44_decode_safe`, `c44_decode_sound_partial`, `c44_padding_inside_refuted`
* `c45_encode`, `c45_decode_complete`, `c45_round_trip`, `c45_decode_safe_partial`, `c45_decode_safe_refuted`, `c45_reads_behind_refuted`, `c45_decode_sound_partial`
* `c46_kept`, `c46_expires_partial`, `c46_expires_zero_refuted`, `c46_expires_wrap_refuted`
* `c47_expire`, `c47_deinit`, `c47_get`, `c47_put`, `c47_history`
* `c48_safe`, `c48_error_sticky`, `c48_error_reads_zero`, `c48_write`, `c48_read`, `c48_read_past_end`, `c48_round_trip`, `c48_copy`, `c48_copy_fails`, `c48_printf_partial`, `c48_printf_safe`, `c48_printf_truncated_refuted`, `c48_printf_ignores_error_refuted`, `c48_skip_min_refuted`
* `c49_unique`, `c49_get`, `c49_get_next`, `c49_data`, `c49_options`, `c49_add`, `c49_add_get`, `c49_add_overflow_refuted`, `c49_add_nomem_refuted`, `c49_set_ext_rcode`, `c49_set_version`, `c49_set_do`, `c49_init`, `c49_padding`, `c49_ecs_write`, `c49_ecs_write_invalid`, `c49_ecs_parse`, `c49_ecs_round_trip`, `c49_ecs_get_addr`, `c49_ecs_set_addr`, `c49_keepalive`, `c49_keepalive_parse`, `c49_cookie_round_trip`, `c49_cookie_parse`, `c49_cookie_invalid`
* `c50_client`, `c50_server`, `c50_lifetime_partial`, `c50_wrap_refuted`, `c50_version`
* `c51_offset`, `c51_safe`, `c51_strip4`, `c51_strip6`, `c51_denied`, `c51_write4`, `c51_write6`, `c51_tcp_refuted`, `c51_address_from_message_refuted`
* `c52_unique`, `c52_nonempty`, `c52_count`, `c52_add`, `c52_lookup`, `c52_remove`, `c52_remove_type`, `c52_history`, `c52_nomem_refuted`, `c52_add_empty_refuted`
* `c53_atomic`, `c53_find`, `c53_find_force`, `c53_foreach`, `c53_del_prefix`, `c53_copy_prefix`, `c53_copy_prefixes_atomic_refuted`, `c53_make_key`, `c53_key_round_trip`, `c53_unmake_safe`, `c53_unmake_short_refuted`, `c53_unmake_overread_refuted`, `c53_quick_insert`
* `c54_same`, `c54_net_match`, `c54_net_match_unix`, `c54_range_partial`, `c54_range_v4_refuted`, `c54_range_v4_partial`, `c54_range_unix`, `c54_is_any`
* `c55_exists`, `c55_apex`, `c55_children`, `c55_update`
* `c56_recorded`, `c56_ttl_refuted`, `c56_lenient_refuted`
* `c57_settled`, `c57_isolated`, `c57_commit`, `c57_rollback_partial`, `c57_history`, `c57_nomem_refuted`
* `c58_wildcard_flag_partial`, `c58_search`, `c58_answer_partial`, `c58_overlong_refuted`, `c58_wild_dname_refuted`, `c58_nsec3_wildcard_refuted`
* `c59_message_round_trip_partial`
* `c60_signed_partial`, `c60_no_churn_partial`, `c60_stable_partial`, `c60_stable_node_partial`, `c60_threads`, `c60_next_partial`, `c60_succeeds_partial`, `c60_lifetime_refuted`, `c60_old_expiration_refuted`, `c60_other_algorithm_refuted`
* `c61_accepted_partial`, `c61_complete_partial`, `c61_signed_accepted_partial`, `c61_far_expiration_refuted`, `c61_dangling_refuted`, `c61_many_keys_refuted`
* `c62_received_partial`, `c62_any_segments`, `c62_empty_late_refuted`, `c62_memory_refuted`
* `c63_sent_partial`, `c63_window_partial`, `c63_resend_partial`, `c63_small_mss_refuted`, `c63_memory_refuted`
* `c64_encoded`, `c64_decoded`, `c64_round_trip`, `c64_round_trip_x509`, `c64_wrong_length`, `c64_only_der_refuted`, `c64_longest_refuted`
* `c65_runs`, `c65_one_value`, `c65_still_used`, `c65_list`, `c65_algorithm`, `c65_load_serials`, `c65_load_ttls`, `c65_load_salt`, `c65_load_policy`, `c65_salt_found`, `c65_algorithm_refuted`, `c65_damaged_refuted`, `c65_csk_refuted`
* `c66_answers`, `c66_nxdomain`, `c66_nxdomain_when`, `c66_nodata`, `c66_nodata_when`, `c66_wildcard_partial`, `c66_referral`, `c66_history`, `c66_wildcard_ent_refuted`, `c66_wildcard_qname_refuted`
* `c67_history`, `c67_step`, `c67_closed`, `c67_indices`, `c67_room_refuted`, `c67_mixed_refuted`, `c67_sweep_refuted`
* `c68_history`, `c68_load`, `c68_update`, `c68_reload`
* `c69_index`, `c69_update`, `c69_additionals_partial`, `c69_encloser_refuted`, `c69_self_refuted`, `c69_growth_refuted`, `c69_null_refuted`
* `c70_roundtrip`, `c70_nested`, `c70_injective`, `c70_control_refuted`, `c70_empty_name_refuted`, `c70_depth_refuted`
* `c71_in_order`, `c71_progress`, `c71_defined`, `c71_kept`, `c71_freed`, `c71_counters`, `c71_stall_refuted`
* `c72_served`, `c72_delete`, `c72_closest`, `c72_query`, `c72_class`, `c72_zero_refuted`, `c72_direct_refuted`
