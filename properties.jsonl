{"id": "C01", "title": "XOR distance is a metric", "statement": "The distance between two 32-byte ids is symmetric, is zero exactly when the ids are equal, satisfies the triangle inequality, and is unidirectional: for every id and every distance there is exactly one id at that distance.", "quantifier": "all triples of 32-byte ids and all 256-bit distances", "why_tests_cant": "The id space has 2^256 points and the laws relate two or three arbitrary points; a test samples a handful.", "anchors": ["crates/ethportal-api/src/types/distance.rs: XorMetric::distance, Distance"]}
{"id": "C02", "title": "Logarithmic distance brackets the distance, and distance order is big-endian byte order", "statement": "log2 of a distance is absent exactly for equal ids and otherwise is the k with 2^(k-1) <= d < 2^k, 1 <= k <= 256; the big-endian byte form of a distance round-trips, has 32 bytes, compares lexicographically in the same order as the distances, and its 4-byte prefix is monotone in the distance.", "quantifier": "all distances, i.e. all 256-bit numbers", "why_tests_cant": "Boundary behaviour at each of the 256 powers of two and order preservation for all pairs cannot be enumerated.", "anchors": ["crates/ethportal-api/src/types/distance.rs: Distance::log2, big_endian, big_endian_u32", "crates/portalnet/src/find/query_info.rs: findnode_log2distance"]}
{"id": "C03", "title": "Content payload round trip", "statement": "Encoding any list of content items whose lengths fit in 32 bits for a uTP transfer succeeds and decoding the bytes gives back exactly that list; encoding fails exactly when some item is longer than 2^32-1 bytes.", "quantifier": "all lists of byte strings, any number of items, any lengths", "why_tests_cant": "Round trips have to hold for each length prefix size and for every concatenation of items.", "anchors": ["crates/portalnet/src/utils/portal_wire.rs: encode_content_payload, decode_content_payload, read_varint"]}
{"id": "C04", "title": "Content payload decoding is total and accounts for every byte", "statement": "For every byte string the payload decoder either returns an error or returns items such that the bytes are exactly the concatenation of (length prefix, item) pairs, with nothing skipped, overlapping or left over; decoding one item succeeds only if the payload holds exactly one item.", "quantifier": "all byte strings, valid or adversarial", "why_tests_cant": "Attacker-chosen payloads form an infinite set; a fuzz campaign only samples it.", "anchors": ["crates/portalnet/src/utils/portal_wire.rs: decode_content_payload, decode_single_content_payload, decode_next_content_item"]}
{"id": "C05", "title": "Hex string round trip", "statement": "Hex encoding any bytes gives a string that decodes to the same bytes, and a string decodes successfully exactly when it starts with 0x or 0X and is followed by an even number of hex digits.", "quantifier": "all byte strings and all strings", "why_tests_cant": "Infinite domain in both directions; the accept set must be characterised exactly.", "anchors": ["crates/ethportal-api/src/utils/bytes.rs: hex_encode, hex_decode"]}
{"id": "C06", "title": "Accept codes survive the wire", "statement": "A list of accept codes of at most 64 entries sent to a peer on protocol version 1 or later is decoded as exactly the same list; on version 0 the peer learns exactly which items were accepted and nothing else; lists longer than 64 are refused on both ends.", "quantifier": "all accept code lists, all protocol versions, all byte strings on decode", "why_tests_cant": "The property relates encoder and decoder under each protocol version for every list.", "anchors": ["crates/ethportal-api/src/types/accept_code.rs: AcceptCodeList::encode, decode, new", "crates/ethportal-api/src/types/protocol_versions.rs: ProtocolVersion::is_v1_enabled"]}
{"id": "C07", "title": "Wire messages round trip", "statement": "Every well-formed portal wire message (ping, pong, find nodes, nodes, find content, content, offer, accept) decodes from its encoding to the same message.", "quantifier": "all well-formed messages with fields of any size within the declared limits", "why_tests_cant": "Nested variable-length SSZ offsets have to line up for every combination of field lengths.", "anchors": ["crates/ethportal-api/src/types/portal_wire.rs: Message, Request, Response, Content"]}
{"id": "C08", "title": "Wire message decoding is total and unambiguous", "statement": "For every byte string decoding a portal wire message returns a message or an error and never panics; two different byte strings never decode to the same message, so a decoded message re-encodes to the bytes it came from.", "quantifier": "all byte strings received from the network", "why_tests_cant": "Malleability and offset confusion arise only on adversarial inputs that examples do not include.", "anchors": ["crates/ethportal-api/src/types/portal_wire.rs: Message::from_ssz_bytes, TryFrom<Vec<u8>>"]}
{"id": "C09", "title": "At most one accepted transfer per content key", "statement": "After an offered content key has been accepted from some peer, no later offer of the same key is accepted until the transfer was removed, was handed to a fallback, or its entry expired; offers of other keys are not affected.", "quantifier": "all sequences of offers, completions, failures and expirations, for all peers and keys", "why_tests_cant": "It is a property of every history and interleaving of offers from different peers.", "anchors": ["crates/portalnet/src/accept_queue.rs: AcceptQueue::add_key_to_queue, remove_key, process_failed_key", "crates/portalnet/src/overlay/service/offer.rs: handle_offer"]}
{"id": "C10", "title": "Fallback peers are real other offerers", "statement": "The peer handed out to retry a failed transfer is always a peer that offered that key while it was queued, is never the peer whose transfer failed, and no peer is recorded twice; when no other peer offered it nothing is handed out, and in either case the key can be accepted again.", "quantifier": "all sequences of queue operations and every random choice", "why_tests_cant": "The claim ranges over histories and over the nondeterministic choice of the fallback.", "anchors": ["crates/portalnet/src/accept_queue.rs: SeenPeers, process_failed_key"]}
{"id": "C11", "title": "Content store refines a bounded map", "statement": "A lookup in the id-indexed store returns the value that was inserted under that id and was not since deleted or pruned, inserts farther than the radius are refused and change nothing, and an insert under an id already present leaves the stored value as it was.", "quantifier": "all histories of insert, delete, prune and lookup, all configurations", "why_tests_cant": "Needs to hold after any history including pruning at arbitrary points.", "anchors": ["crates/storage/src/versioned/id_indexed_v1/store.rs: insert, lookup_content_value, delete, prune", "crates/storage/src/versioned/id_indexed_v1/sql.rs"]}
{"id": "C12", "title": "Content store usage accounting", "statement": "The reported entry count and total size equal the number and the total size of the stored entries after every history of operations in which no id already present is inserted again.", "quantifier": "all histories, all sizes", "why_tests_cant": "Drift is cumulative and shows up only on particular histories such as duplicate inserts.", "anchors": ["crates/storage/src/versioned/usage_stats.rs: UsageStats", "crates/storage/src/versioned/id_indexed_v1/store.rs: insert, delete, prune, init_usage_stats"]}
{"id": "C13", "title": "Content store stays within its capacity", "statement": "When an insert returns, the reported usage (content plus the per-entry overhead) does not exceed the configured storage capacity; with capacity zero nothing stays stored and the radius is zero.", "quantifier": "all configurations and histories, all content sizes, any pruning durations", "why_tests_cant": "The pruning loop uses floating point estimates whose progress must be argued for every size distribution.", "anchors": ["crates/storage/src/versioned/id_indexed_v1/store.rs: prune", "crates/storage/src/versioned/id_indexed_v1/pruning_strategy.rs: get_pruning_count"]}
{"id": "C14", "title": "Pruning removes the farthest content and reports it", "statement": "What pruning removes is never closer to the node, at the precision of the stored 4-byte distance prefix, than anything it keeps, and the list of dropped content returned to the caller is exactly the removed entries.", "quantifier": "all store contents, node ids and pruning batch sizes", "why_tests_cant": "Ties, batch boundaries and count mismatches depend on the whole content set.", "anchors": ["crates/storage/src/versioned/id_indexed_v1/store.rs: prune", "crates/storage/src/versioned/id_indexed_v1/sql.rs: DELETE_FARTHEST"]}
{"id": "C15", "title": "Radius matches what is stored", "statement": "After pruning changed the radius, content beyond the radius is not stored: no entry has a distance prefix larger than that of the radius, and the radius never exceeds the configured maximum.", "quantifier": "all store contents and configurations", "why_tests_cant": "The radius is derived from one arbitrary farthest row; the claim is about all rows.", "anchors": ["crates/storage/src/versioned/id_indexed_v1/store.rs: set_radius_to_farthest, init, prune"]}
{"id": "C16", "title": "Reopening the store", "statement": "Closing and reopening a store yields the same content, recomputes the usage from the content so any drift disappears, prunes if the capacity shrank, and refuses a database that was written for a different node id.", "quantifier": "all store contents, old and new configurations, any crash point between operations", "why_tests_cant": "Crash points and configuration changes multiply; tests reopen once in a fixed state.", "anchors": ["crates/storage/src/versioned/id_indexed_v1/store.rs: create, init, migrate_from", "crates/storage/src/versioned/utils.rs: create_store"]}
{"id": "C17", "title": "Pagination covers everything once", "statement": "Concatenating the pages of a store listing, for any page size, gives every stored key exactly once in key order, and each page has at most the requested size.", "quantifier": "all store contents, page sizes and offsets", "why_tests_cant": "Off-by-one errors at page boundaries depend on every combination of size, offset and count.", "anchors": ["crates/storage/src/versioned/id_indexed_v1/store.rs: paginate", "crates/storage/src/versioned/id_indexed_v1/sql.rs: PAGINATE"]}
{"id": "C18", "title": "Storage capacity is split without overspending", "statement": "With a combined storage limit the capacities given to the enabled subnetworks never add up to more than the limit, each is its weight's share rounded down, and a subnetwork that is not enabled gets an error.", "quantifier": "all limits and all sets of enabled subnetworks", "why_tests_cant": "Rounding has to be shown for every limit and weight assignment.", "anchors": ["crates/storage/src/config.rs: PortalStorageConfigFactory"]}
{"id": "C19", "title": "Merkle proofs: completeness", "statement": "For every list of leaves and depth that fits, a proof generated for any index verifies against the root of the tree with the leaf at that index (a zero leaf past the end).", "quantifier": "all leaf lists, depths up to the maximum, all indices, any hash function", "why_tests_cant": "Trees of every shape and every index cannot be enumerated.", "anchors": ["crates/validation/src/merkle/proof.rs: MerkleTree::create, generate_proof, verify_merkle_proof"]}
{"id": "C20", "title": "Merkle proofs: soundness", "statement": "If a proof verifies for a leaf at an index against the root of a tree, that leaf is the tree's leaf at that index, unless the proof exhibits a hash collision.", "quantifier": "all trees, indices, adversarial proofs and leaves", "why_tests_cant": "The adversary chooses the proof; only a reduction to collisions covers all of them.", "anchors": ["crates/validation/src/merkle/proof.rs: verify_merkle_proof, merkle_root_from_branch"]}
{"id": "C21", "title": "Incremental Merkle tree equals batch tree", "statement": "Pushing leaves one at a time into an empty tree gives the same root as building the tree from the whole list; pushing fails exactly when the tree is full; finalising a prefix of deposits and snapshotting does not change the root.", "quantifier": "all leaf sequences and depths", "why_tests_cant": "Each push takes a different path through the tree; equality must hold after each one.", "anchors": ["crates/validation/src/merkle/proof.rs: push_leaf, finalize_deposits, from_finalized_snapshot, get_finalized_hashes"]}
{"id": "C22", "title": "Only canonical headers are accepted", "statement": "A pre-merge or post-merge header with proof is accepted only when its hash is committed to by the trusted accumulator (epoch accumulator, historical roots or historical summaries) at the position the header number or slot names, unless a hash collision is exhibited, and only with the proof kind of its fork.", "quantifier": "all headers and adversarial proofs, all trusted accumulators", "why_tests_cant": "Adversarial proofs form an infinite set.", "anchors": ["crates/validation/src/header_validator.rs: HeaderValidator"]}
{"id": "C23", "title": "Honest pre-merge header proofs are accepted", "statement": "A proof built from an epoch accumulator for a header recorded in it is accepted by the header validator when the trusted list holds that epoch's root.", "quantifier": "all epochs of 8192 records and all positions in them", "why_tests_cant": "Covers every index of every epoch rather than a few fixtures.", "anchors": ["crates/validation/src/accumulator.rs: construct_proof", "crates/validation/src/header_validator.rs: verify_pre_merge_header"]}
{"id": "C24", "title": "The chain head view never goes back", "statement": "The latest and finalised headers kept by the chain head store only move to strictly larger slots and the historical summaries list only grows, whatever updates arrive in whatever order.", "quantifier": "all sequences of updates in any order", "why_tests_cant": "Reordering and replays of gossip produce unbounded histories.", "anchors": ["crates/validation/src/chain_head/store.rs", "crates/validation/src/chain_head/mod.rs"]}
{"id": "C25", "title": "Nibble path encoding", "statement": "Every path of at most 64 nibbles round-trips through its byte encoding, decoding accepts exactly the encodings of such paths, so no two byte strings decode to the same path.", "quantifier": "all nibble lists and all byte strings", "why_tests_cant": "Parity, padding and length limits interact on every length.", "anchors": ["crates/ethportal-api/src/types/state_trie/nibbles.rs: Nibbles"]}
{"id": "C26", "title": "Content keys are unambiguous", "statement": "Every content key of the legacy history, beacon, state and history subnetworks decodes from its bytes to itself; decoding is the inverse of encoding on everything it accepts, so two distinct keys never share bytes and each byte string names at most one key.", "quantifier": "all keys and all byte strings", "why_tests_cant": "Injectivity over an infinite key space, including variable-length paths.", "anchors": ["crates/ethportal-api/src/types/content_key/legacy_history.rs", "crates/ethportal-api/src/types/content_key/beacon.rs", "crates/ethportal-api/src/types/content_key/state.rs", "crates/ethportal-api/src/types/content_key/history.rs"]}
{"id": "C27", "title": "Range content ids", "statement": "The content ids of the history network are distinct for distinct (block number, content type) pairs, and within an aligned run of 2^16 blocks larger block numbers get larger ids.", "quantifier": "all 64-bit block numbers and content types", "why_tests_cant": "2^64 block numbers times 256 types.", "anchors": ["crates/ethportal-api/src/types/content_key/content_id.rs: range_content_id"]}
{"id": "C28", "title": "Trie proofs prove what they say", "statement": "If a list of trie nodes validates for a root and a path, the node or account read at the end is the one that every trie with that root has there: two proofs accepted for the same root and path end in the same result unless they exhibit a hash collision, and the proof generated by walking a real trie validates.", "quantifier": "all tries, paths and adversarial proofs", "why_tests_cant": "Adversarial proofs mix node kinds at each step.", "anchors": ["crates/ethportal-api/src/types/state_trie/trie_traversal.rs: NodeTraversal", "crates/subnetworks/state/src/validation/trie.rs: validate_trie_proof, validate_node_trie_proof, validate_account_state"]}
{"id": "C29", "title": "State content is stored in the form peers can check", "statement": "When the state store accepts an offered value, what is stored and later served under that key is a bare node or bytecode whose hash is the hash in the key, and the value passes validation when it is retrieved by another node.", "quantifier": "all keys and values", "why_tests_cant": "Relates three code paths (offer validation, storing, retrieval validation) on every input.", "anchors": ["crates/subnetworks/state/src/storage.rs: put", "crates/subnetworks/state/src/validation/validator.rs"]}
{"id": "C30", "title": "State offers are tied to a block's state root", "statement": "An offered state value that validates as canonical proves inclusion under the state root of the block it names.", "quantifier": "all keys, values and proofs", "why_tests_cant": "Needs all adversarial proofs.", "anchors": ["crates/subnetworks/state/src/validation/validator.rs: validate_account_trie_node, get_state_root"]}
{"id": "C31", "title": "Lookups respect their parallelism and contact each peer once", "statement": "A recursive lookup never has more requests in flight than its parallelism while iterating or than its result count when stalled, and never asks the same peer twice.", "quantifier": "all network behaviours: every order of replies, failures and timeouts, and every set of returned peers", "why_tests_cant": "The environment is adversarial and concurrent; schedules are unbounded.", "anchors": ["crates/portalnet/src/find/iterators/findnodes.rs", "crates/portalnet/src/find/iterators/findcontent.rs"]}
{"id": "C32", "title": "Lookup results are the closest peers that answered", "statement": "The result of a finished node lookup is a list of distinct peers that answered successfully, sorted by distance to the target and at most the result count long; no peer that answered is closer than the last one returned without being returned itself.", "quantifier": "all schedules and network behaviours", "why_tests_cant": "Ranges over all histories of the lookup.", "anchors": ["crates/portalnet/src/find/iterators/findnodes.rs: into_result"]}
{"id": "C33", "title": "Lookups terminate", "statement": "Every lookup finishes after finitely many polls and events: each contacted peer is asked at most once, and once no request is in flight and no known peer is left uncontacted the lookup reports that it is finished.", "quantifier": "all schedules in which the set of peer ids that are ever returned is finite", "why_tests_cant": "Liveness over unbounded schedules.", "anchors": ["crates/portalnet/src/find/iterators/findnodes.rs: next", "crates/portalnet/src/find/iterators/findcontent.rs: poll"]}
{"id": "C34", "title": "Content lookups only return validated content", "statement": "A content lookup reports content as found only if that content was validated, at most one received value is being validated at any time, and the reported peer is one that supplied content in this lookup.", "quantifier": "all schedules of replies and validation outcomes", "why_tests_cant": "Schedules interleave replies and validations arbitrarily.", "anchors": ["crates/portalnet/src/find/iterators/findcontent.rs", "crates/portalnet/src/overlay/service/find_content.rs: process_received_content"]}
{"id": "C35", "title": "A failed validation does not stall a content lookup", "statement": "Whenever a lookup asked for a received value to be validated, it is eventually told an outcome, so it can go on to other peers.", "quantifier": "all ways processing received content can end", "why_tests_cant": "Rare error paths (unknown peer record, no common protocol version).", "anchors": ["crates/portalnet/src/overlay/service/find_content.rs: handle_find_content_query_event, process_received_content"]}
{"id": "C36", "title": "Query pool accounting", "statement": "Every query added to the pool is reported finished or timed out at most once and is gone afterwards, query ids are not reused while the pool holds them, and the pool says idle exactly when it is empty.", "quantifier": "all sequences of add and poll, any iteration order, any clock", "why_tests_cant": "Hash map iteration order and timing are nondeterministic.", "anchors": ["crates/portalnet/src/find/query_pool.rs: QueryPool::poll, add_query"]}
{"id": "C37", "title": "Requested log distances are the right neighbours", "statement": "The log distances requested from a peer start with that peer's log distance to the target, are distinct, lie within 0..256, are exactly as many as asked for, and are the nearest such distances.", "quantifier": "all pairs of ids and all sizes up to 127", "why_tests_cant": "256 distances times 127 sizes with saturation at both ends.", "anchors": ["crates/portalnet/src/find/query_info.rs: findnode_log2distance"]}
{"id": "C38", "title": "Closest-peer queries", "statement": "The peers returned as closest to a content id are connected, sorted by distance, at most the limit, and no connected peer in the table that was left out is closer than one returned.", "quantifier": "all routing tables, targets and limits", "why_tests_cant": "Sorting, filtering and truncation commute only in the right order.", "anchors": ["crates/portalnet/src/types/kbucket.rs: closest_to_content_id, closest_to_node_id"]}
{"id": "C39", "title": "Nodes-by-distance queries", "statement": "A find-nodes answer only contains the local record (for distance zero) and connected peers at the requested log distances, without duplicates and at most the limit.", "quantifier": "all routing tables, distance lists (with duplicates, unsorted, out of range) and limits", "why_tests_cant": "Inputs come from the network.", "anchors": ["crates/portalnet/src/types/kbucket.rs: nodes_by_distances", "crates/portalnet/src/overlay/service/find_nodes.rs: handle_find_nodes"]}
{"id": "C40", "title": "Replies fit in one packet", "statement": "The records in a nodes reply or in a content reply, and content returned inline, never exceed the number of bytes left in a discv5 packet, whatever the requester asks.", "quantifier": "all routing tables, requests and content sizes", "why_tests_cant": "Depends on the sizes of arbitrary sets of records.", "anchors": ["crates/portalnet/src/overlay/service/utils.rs: pop_while_ssz_bytes_len_gt", "crates/portalnet/src/overlay/service/find_nodes.rs", "crates/portalnet/src/overlay/service/find_content.rs", "crates/ethportal-api/src/types/portal_wire.rs: MAX_PORTAL_NODES_ENRS_SIZE"]}
{"id": "C41", "title": "Gossip recipients", "statement": "Content is offered only to peers whose radius covers it (or to random peers if the radius does not apply), each offer has between 1 and 64 items, no item is offered twice to the same peer in one batch, and every item with an interested peer is offered to at least one.", "quantifier": "all routing tables, content batches and random choices", "why_tests_cant": "Involves all batches and all random selections.", "anchors": ["crates/portalnet/src/gossip/mod.rs: gossip_recipients", "crates/portalnet/src/gossip/neighborhood.rs", "crates/portalnet/src/gossip/random.rs"]}
{"id": "C42", "title": "Offer/accept transfers deliver each value under its own key", "statement": "When an offer is answered and the accepted content is transferred, the receiver pairs each accepted key with exactly the value the sender holds for that key, in every combination of accept codes and protocol versions.", "quantifier": "all offers, all accept decisions, both protocol versions", "why_tests_cant": "Sender and receiver each filter and zip lists; agreement must hold for every subset.", "anchors": ["crates/portalnet/src/overlay/service/offer.rs: handle_offer, process_accept, decode_payload", "crates/ethportal-api/src/types/accept_code.rs", "crates/portalnet/src/utils/portal_wire.rs"]}
{"id": "C43", "title": "Offer replies are faithful to the store's decision", "statement": "An offered key is accepted only if the node wants to store it and no transfer of it is in progress; the reply has one code per offered key in order; the connection id is zero exactly when nothing was accepted.", "quantifier": "all offers, store states, queue states and transfer limits", "why_tests_cant": "All combinations of states.", "anchors": ["crates/portalnet/src/overlay/service/offer.rs: handle_offer"]}
{"id": "C44", "title": "Invalid content is never stored or gossiped", "statement": "Content received through an offer, a fallback retry or a lookup is stored or propagated only if the validator accepted it; content that is valid but not canonical is never stored.", "quantifier": "all histories of received content and validator outcomes", "why_tests_cant": "All interleavings of receive paths.", "anchors": ["crates/portalnet/src/overlay/service/offer.rs: validate_and_store_content", "crates/portalnet/src/overlay/service/find_content.rs: process_received_content"]}
{"id": "C45", "title": "Transfer slots are never oversubscribed or leaked", "statement": "The number of concurrent inbound (and outbound) uTP transfers never exceeds the configured limit, and a slot is available again after the transfer that held it ended in any way.", "quantifier": "all interleavings of acquiring and releasing", "why_tests_cant": "Concurrency.", "anchors": ["crates/portalnet/src/utp/controller.rs", "crates/portalnet/src/utp/timed_semaphore.rs"]}
{"id": "C46", "title": "e2store entries and files round trip", "statement": "Serialising an e2store entry or a whole file and reading it back gives the same entries; a byte string that is accepted re-serialises to itself; reserved bytes other than zero are refused.", "quantifier": "all entries, files and byte strings", "why_tests_cant": "Unbounded sizes; adversarial files.", "anchors": ["crates/e2store/src/e2store/types.rs: Entry", "crates/e2store/src/e2store/memory.rs: E2StoreMemory"]}
{"id": "C47", "title": "Reading e2store bytes never panics", "statement": "Deserialising any byte string as an e2store entry or file returns a value or an error.", "quantifier": "all byte strings", "why_tests_cant": "Truncated and adversarial inputs.", "anchors": ["crates/e2store/src/e2store/types.rs: Entry::deserialize", "crates/e2store/src/e2store/memory.rs: deserialize"]}
{"id": "C48", "title": "Light client safety", "statement": "The finalised header of the light client only moves forward, only on updates signed by at least two thirds of the sync committee that is responsible for the signature's period and with a valid finality proof, and never overtakes the optimistic header.", "quantifier": "all sequences of updates, valid or not, and all clocks", "why_tests_cant": "Histories across sync committee periods.", "anchors": ["crates/light-client/src/consensus/consensus_client.rs: verify_generic_update, apply_generic_update"]}
{"id": "C49", "title": "Light client committee tracking", "statement": "The current sync committee in the store is always the one for the period of the finalised header, and the next committee, when known, is the one for the following period; both come from the bootstrap or from a proof against a header signed by an earlier trusted committee.", "quantifier": "all sequences of verified updates", "why_tests_cant": "Period boundaries, missing next committees and out-of-order updates.", "anchors": ["crates/light-client/src/consensus/consensus_client.rs: bootstrap, apply_generic_update"]}
{"id": "C50", "title": "Beacon content store reads back what was stored", "statement": "Light client updates, bootstraps and historical summaries that were stored are returned for their key, range lookups return all requested periods in order or nothing, and the cached finality and optimistic updates returned for a slot are at least as new as that slot.", "quantifier": "all histories of puts and gets", "why_tests_cant": "Ranges over histories and overlapping ranges.", "anchors": ["crates/subnetworks/beacon/src/storage.rs: get, put, is_key_within_radius_and_unavailable", "crates/storage/src/sql.rs"]}
{"id": "C51", "title": "Beacon store never regresses", "statement": "The finality update, optimistic update and historical summaries served never become older than ones stored earlier.", "quantifier": "all histories of puts", "why_tests_cant": "Depends on the order of arrival.", "anchors": ["crates/subnetworks/beacon/src/storage.rs: put, BeaconStorageCache"]}
{"id": "C52", "title": "Legacy history validation binds content to its key", "statement": "A header is accepted for a key only if its hash or number is the one in the key and its proof is valid; a block body or receipts only if they match the roots in the header trusted for the key's block hash; ephemeral keys are never accepted.", "quantifier": "all keys, values and oracle answers", "why_tests_cant": "Adversarial values.", "anchors": ["crates/subnetworks/legacy-history/src/validation.rs"]}
{"id": "C53", "title": "Protocol version negotiation", "statement": "Two nodes that exchange their supported version lists choose the same version, it is the highest both support, and negotiation fails exactly when they share none.", "quantifier": "all pairs of version lists", "why_tests_cant": "All pairs of lists.", "anchors": ["crates/ethportal-api/src/types/protocol_versions.rs: ProtocolVersionList", "crates/portalnet/src/discovery.rs / overlay/protocol: latest_common_protocol_version"]}
{"id": "C54", "title": "Routing table updates keep the newest record", "statement": "Discovering a peer record replaces the stored record only when its sequence number is larger, never creates two entries for one node, and never inserts the local node.", "quantifier": "all sequences of discovered records", "why_tests_cant": "Histories with stale and replayed records.", "anchors": ["crates/portalnet/src/types/kbucket.rs: insert_or_update_discovered_nodes", "crates/portalnet/src/overlay/service/manager.rs: process_discovered_enrs"]}
{"id": "C55", "title": "Memory used for decoding is bounded by the payload", "statement": "The memory reserved while decoding an offered content payload is at most proportional to the number of bytes received.", "quantifier": "all byte strings received over uTP", "why_tests_cant": "Adversarial length prefixes.", "anchors": ["crates/portalnet/src/utils/portal_wire.rs: decode_content_payload"]}
{"id": "C56", "title": "Random node id generated for a bucket lands in that bucket", "statement": "For every bucket index and every source of randomness, the node id generated for refreshing that bucket has exactly that log2 distance from the local id.", "quantifier": "all local ids, bucket indices and random bytes", "why_tests_cant": "All ids and all random choices.", "anchors": ["crates/ethportal-api/src/types/node_id.rs: generate_random_node_id"]}
{"id": "C57", "title": "Evenly spread random ids", "statement": "The ids generated to cover the id space evenly fall one into each of the equal slices of the id space, in order, whatever the random choices; counts that cannot be spread are refused.", "quantifier": "all counts and all random bytes", "why_tests_cant": "All random choices.", "anchors": ["crates/ethportal-api/src/types/node_id.rs: generate_random_node_ids / random_node_id_with_prefix"]}
{"id": "C58", "title": "A content key whose transfer got lost is accepted again", "statement": "If the transfer of an accepted key neither finishes nor fails, the key is offered for transfer again once two minutes have passed.", "quantifier": "all histories of offers and their times", "why_tests_cant": "Depends on the times and order of all later offers.", "anchors": ["crates/portalnet/src/accept_queue.rs: AcceptQueue::add_key_to_queue"]}
{"id": "C59", "title": "A value found in the store reaches the asking peer", "statement": "A peer that asks for content in the store gets exactly the stored bytes, inline or over the announced stream, whenever both sides agree on the protocol version.", "quantifier": "all keys, values and protocol versions", "why_tests_cant": "All sizes around the packet limit and both encodings.", "anchors": ["crates/portalnet/src/overlay/service/find_content.rs: handle_find_content", "crates/portalnet/src/utils/portal_wire.rs: decode_single_content_payload"]}
{"id": "C60", "title": "Every accepted key is released when its transfer ends", "statement": "When the transfer for an accepted offer ends, in whatever way, every key accepted in it stops blocking later offers of that key or is taken over by another peer.", "quantifier": "all payloads, validation results and stores", "why_tests_cant": "All ways a transfer can end and all subsets of bad items.", "anchors": ["crates/portalnet/src/overlay/service/offer.rs: handle_offer, fallback_find_content, single_fallback_find_content"]}
{"id": "C61", "title": "The maximal radius option means its percentage", "statement": "A percentage up to 100 for the maximal radius gives that part of the largest distance, rounded down; 100 gives the largest distance, larger percentages give larger radii, and more than 100 is refused.", "quantifier": "all percentages", "why_tests_cant": "The arithmetic is on 256 bit numbers and has to hold at every percentage.", "anchors": ["crates/utils/src/cli.rs: max_radius_parser"]}
{"id": "C62", "title": "Every connected peer keeps being checked", "statement": "A peer that is counted as connected, and so is recommended to others and gets gossip, is pinged every time its turn comes, until it fails to answer or is removed.", "quantifier": "all histories of requests, responses, failures, discovered records and changes of the table", "why_tests_cant": "Depends on the order of failures and incoming messages.", "anchors": ["crates/portalnet/src/overlay/service/manager.rs: connect_node, register_node_activity, process_request_failure, start", "crates/portalnet/src/overlay/protocol.rs: add_enr"]}
{"id": "C63", "title": "The radius attributed to a peer is the one it last reported", "statement": "The data radius used to decide which peers are interested in content is the last one the peer reported in a ping or pong; a peer that has not reported any is taken to store everything.", "quantifier": "all histories of messages, discovered records and changes of the table", "why_tests_cant": "Depends on the order of all messages.", "anchors": ["crates/portalnet/src/overlay/service/ping/mod.rs: process_ping, process_pong", "crates/portalnet/src/overlay/service/ping/handlers.rs", "crates/portalnet/src/types/kbucket.rs: insert_or_update_discovered_nodes"]}
{"id": "C64", "title": "Honest proofs for headers after the merge are accepted", "statement": "The proofs built from a beacon block, the block roots of its period and (before Capella) the state roots are accepted by a validator that knows the historical roots and can obtain the summary of the period, for every header in the era the proof is for.", "quantifier": "all beacon blocks, periods, slots and headers, all sequences of earlier validations", "why_tests_cant": "The positions of fields in four nested trees and the indexing of periods cannot be covered by sample blocks.", "anchors": ["crates/ethportal-api/src/types/execution/header_with_proof.rs: build_historical_roots_proof, build_capella_historical_summaries_proof, build_deneb_historical_summaries_proof, build_electra_historical_summaries_proof", "crates/ethportal-api/src/types/consensus/proof.rs: build_merkle_proof_for_index", "crates/validation/src/header_validator.rs: validate_header_with_proof"]}
{"id": "C65", "title": "Beacon content is bound to its key", "statement": "Content accepted for a beacon content key is the content that key names: a bootstrap for the header with that block root, updates for exactly the named periods, a finality or optimistic update and summaries at least as new as, or of, the named slot or epoch.", "quantifier": "all keys, values, states of the light client", "why_tests_cant": "All keys and values, with and without a running light client.", "anchors": ["crates/subnetworks/beacon/src/validation.rs: BeaconValidator::validate_content", "crates/subnetworks/beacon/src/storage.rs: BeaconStorage::put"]}
{"id": "C66", "title": "Decoding beacon content from peers never panics", "statement": "Validating any bytes a peer sends for any beacon content key ends in acceptance or rejection, and a value carries its fork: writing and reading the fork digest are inverse.", "quantifier": "all keys and byte strings", "why_tests_cant": "All byte strings, including those shorter than any valid value.", "anchors": ["crates/ethportal-api/src/types/consensus/fork.rs: ForkName::try_from", "crates/ethportal-api/src/types/content_value/beacon.rs: ForkVersionedLightClientUpdate, ForkVersionedLightClientBootstrap, ForkVersionedLightClientFinalityUpdate, ForkVersionedLightClientOptimisticUpdate"]}
{"id": "C67", "title": "The light client starts from a trusted root", "statement": "The block root from which the light client starts is the configured one, the embedded one or that of a header that was finalised according to a running light client.", "quantifier": "all histories of content received, stored, pruned and of restarts", "why_tests_cant": "Depends on everything peers sent over earlier runs.", "anchors": ["crates/subnetworks/beacon/src/network.rs: BeaconNetwork::new", "crates/subnetworks/beacon/src/storage.rs: lookup_latest_block_root"]}
{"id": "C68", "title": "Bounded work for an offered beacon key", "statement": "Deciding whether to accept an offered beacon key takes a bounded number of database queries, whatever the key says.", "quantifier": "all keys and stores", "why_tests_cant": "The number is chosen by the peer in the key.", "anchors": ["crates/subnetworks/beacon/src/storage.rs: BeaconStorage::should_we_store"]}
{"id": "C69", "title": "The light client catches up", "statement": "Started from a checkpoint any number of periods old, with one honest update for every period since, the light client reaches the finalised header that honest peers report, and it keeps following them, also after an interruption.", "quantifier": "all numbers of periods, all honest chains, updates and clocks, all interruptions", "why_tests_cant": "Any number of periods, and any length of interruption.", "anchors": ["crates/light-client/src/consensus/consensus_client.rs: sync, advance, verify_generic_update, apply_generic_update", "crates/light-client/src/client.rs: start, start_advance_thread"]}
{"id": "C70", "title": "The reported head is backed by the sync committee", "statement": "The light client reports a header as the head of the chain only if it is newer and a substantial part of the sync committee signed it.", "quantifier": "all stores, updates and clocks", "why_tests_cant": "Depends on the participation seen so far.", "anchors": ["crates/light-client/src/consensus/consensus_client.rs: apply_generic_update, safety_threshold"]}
{"id": "C71", "title": "State content values are unambiguous", "statement": "Under every content key of the state network, a value that may stand there, bare or with its proof, is read back from its bytes; every byte string is read as at most one value, whose encoding it is; a bare node or bytecode is never read as one with a proof or the other way round; and no byte string crashes the decoder.", "quantifier": "all keys, values and byte strings", "why_tests_cant": "The decoder tries two formats in turn on arbitrary bytes.", "anchors": ["crates/ethportal-api/src/types/content_value/state.rs: StateContentValue::encode, StateContentValue::decode"]}
{"id": "C72", "title": "Streamed e2store files", "statement": "Records appended one by one make the same file as writing them at once; reading a file as a stream gives its records in order; a file cut off at any byte gives exactly the records that are whole, then the end of file; and where the reader in memory accepts a file the stream gives the same records.", "quantifier": "all lists of records, all byte strings, all points where a file is cut", "why_tests_cant": "A writer or a download can stop at any byte.", "anchors": ["crates/e2store/src/e2store/stream.rs: E2StoreStreamReader::next_entry, E2StoreStreamWriter::append_entry"]}
{"id": "C73", "title": "era1 files round trip", "statement": "An era1 file of 8192 blocks (or of the last 5362) that is written is read back as the same blocks, accumulator and index, also block by block; what is read from any file stands in it; and reading any file returns a value or an error.", "quantifier": "all blocks, all byte strings", "why_tests_cant": "Files come from other parties, and the index in them decides what is read.", "anchors": ["crates/e2store/src/era1.rs: Era1::write, Era1::deserialize, Era1::iter_tuples"]}
{"id": "C74", "title": "e2hs files round trip and their index is right", "statement": "8192 blocks appended to an e2hs writer make a file that is read back as those blocks and whose index gives for each block the place of its records; reading a file gives all its blocks or an error.", "quantifier": "all sequences of 8192 blocks, all contents and sizes of records, all epochs", "why_tests_cant": "The offsets depend on the compressed sizes of all records before.", "anchors": ["crates/e2store/src/e2hs.rs: E2HSWriter, E2HSMemory::write, E2HSMemory::deserialize"]}
{"id": "C75", "title": "era files round trip", "statement": "An era file is read back with the block of each slot that has one, decoded for the fork of its slot, whichever slots are empty; and reading any file returns a value or an error.", "quantifier": "all patterns of empty slots, all blocks, states and starting slots", "why_tests_cant": "Any of 8192 slots may be empty, and the forks change inside the range of slots.", "anchors": ["crates/e2store/src/era.rs: Era::write, Era::deserialize, get_block_slot_indexes, get_beacon_fork"]}
{"id": "C76", "title": "State snapshots round trip", "statement": "The snapshot writer accepts exactly the sequences in which every account is followed by its storage records, each but the last full; a snapshot that was written is read back as the same sequence; an incomplete file is reported as an error.", "quantifier": "all sequences of accounts and storage records, all points where a file is cut", "why_tests_cant": "Any number of records, and a file can be cut at any byte.", "anchors": ["crates/e2store/src/e2ss.rs: E2SSWriter::append_entry, E2SSReader::next"]}
{"id": "C77", "title": "Legacy history values round trip", "statement": "Every header with its proof, block body, list of receipts and ephemeral header that fits the limits of the format is read back from its bytes under its key; whatever is read stands in the bytes, up to bytes after an RLP item; and decoding any bytes returns a value or an error.", "quantifier": "all keys, values and byte strings", "why_tests_cant": "Values are variable-length nestings of offsets, and the proof is decoded differently by the time of the header in the same value.", "anchors": ["crates/ethportal-api/src/types/content_value/legacy_history.rs: LegacyHistoryContentValue::encode, LegacyHistoryContentValue::decode", "crates/ethportal-api/src/types/execution/header_with_proof.rs: HeaderWithProof", "crates/ethportal-api/src/types/execution/block_body.rs: BlockBody", "crates/ethportal-api/src/types/execution/receipts.rs: Receipts"]}
{"id": "C78", "title": "Ping payloads are unambiguous", "statement": "Every ping or pong payload with a radius, capabilities, a client description or an error that fits the limits of the format is read back as the same value, any payload that is accepted is the only one for its value, and reading any payload returns a value or an error.", "quantifier": "all payload types, values and byte strings, including client descriptions with arbitrary parts", "why_tests_cant": "The client description is a text cut at separators inside an offset-based container; payloads come from peers.", "anchors": ["crates/ethportal-api/src/types/ping_extensions/decode.rs: PingExtension::decode_ssz", "crates/ethportal-api/src/types/ping_extensions/extensions/type_0.rs: ClientInfoRadiusCapabilities, ClientInfo"]}
{"id": "C79", "title": "After a ping both sides know the other's radius", "statement": "When a node pings another of the same network, both end up with the other's current radius in their tables and, the first time, with the list of payload types it supports; later pings use a type the peer has listed. Each ping gets one reply that fits into a packet: of the same type if it is supported, otherwise an error; a ping that cannot be read is answered with an error. No bytes crash the node, and payloads that are errors, unsupported or unreadable change nothing.", "quantifier": "all pairs of nodes, networks, radii, tables, behaviours of the routing table and received bytes", "why_tests_cant": "It composes two state machines, two message codecs and the negotiation of payload types.", "anchors": ["crates/portalnet/src/overlay/service/ping/mod.rs: ping_node, handle_ping, process_ping, process_pong", "crates/portalnet/src/overlay/ping_extensions.rs: PingExtensions"]}
{"id": "C80", "title": "Content of a type belongs to one kind of store", "statement": "The database records which kind of store holds the content of each type. A store of another kind, or any store if the record is unknown to the program, is refused and nothing in the database changes, also if the program dies while opening. After any history of opening and using stores and dying, what a store finds was put there by a store of the same kind for the same type, and content of one type is never in the tables of two kinds.", "quantifier": "all histories of opening stores of all kinds, operations on them and crashes at any point", "why_tests_cant": "It is an invariant over all histories, including upgrades, downgrades and crashes while opening.", "anchors": ["crates/storage/src/versioned/utils.rs: create_store", "crates/storage/src/versioned/mod.rs: ContentType, StoreVersion"]}
{"id": "C81", "title": "The store of ephemeral content is a map that counts correctly", "statement": "After any history of puts, deletions and restarts the store holds under each id the first content put there since it was last deleted, it refuses slots that the database cannot hold without any change, never panics, and its counts of entries and bytes are those of its content.", "quantifier": "all histories of operations and restarts, keys, values and slots", "why_tests_cant": "The counts are kept beside the database and only agree if every path updates both.", "anchors": ["crates/storage/src/versioned/ephemeral_v1/store.rs: EphemeralV1Store::insert, delete", "crates/storage/src/versioned/usage_stats.rs: UsageStats"]}
{"id": "C82", "title": "Looking up a node's record gives that node's newest record", "statement": "Adding a record makes it retrievable and changes no other; removing one removes exactly it; one's own record is always known. A lookup returns a record of the node that was asked for, at least as new as the known one, or fails.", "quantifier": "all tables, records, fates of entries, answers of nodes, search results and states of the discovery layer", "why_tests_cant": "What a lookup returns depends on answers of arbitrary nodes in any combination.", "anchors": ["crates/portalnet/src/overlay/protocol.rs: add_enr, get_enr, delete_enr, lookup_enr, lookup_node"]}
{"id": "C83", "title": "Requests are well formed and each is answered once, with its own answer", "statement": "In every order of requests and answers each caller gets exactly one result, which is the answer of the node the request was sent to, to this request, or an error. Only requests for valid distances and pings with a fitting payload are sent, and the other side reads them as they were meant. Content is returned only if it is valid for the key; what a node of the same version serves arrives. An offered item reported as accepted has been written to the stream.", "quantifier": "all schedules of requests and answers, answers of peers, arguments of the calls, contents and versions", "why_tests_cant": "Answers arrive in any order and their bytes are chosen by the peers.", "anchors": ["crates/portalnet/src/overlay/protocol.rs: send_ping, send_find_nodes, send_find_content, send_offer, send_offer_trace", "crates/portalnet/src/overlay/service/manager.rs: process_request, send_talk_req, start", "crates/portalnet/src/overlay/request.rs: OverlayRequest"]}
{"id": "C84", "title": "The bridge knows exactly the nodes that answer, and keeps checking them", "statement": "A node becomes known when it answers a check with its capabilities, keeps its newest record and last announced radius, and is forgotten exactly when ten checks in a row have failed. Every known node has a next check, five minutes after the last one. Setting up ends, and reports when no node was found.", "quantifier": "all histories of found records, due checks, answers of nodes and offer results, at any times", "why_tests_cant": "The set of known nodes depends on the whole history of answers and times.", "anchors": ["bin/portal-bridge/src/census/peer.rs: Peer", "bin/portal-bridge/src/census/peers.rs: Peers", "bin/portal-bridge/src/census/network.rs: Network::init, liveness_check, NetworkManager"]}
{"id": "C85", "title": "Content is offered to interested nodes in good standing", "statement": "A selection for content has different known nodes whose radius covers the content and whose recent score is positive, as many as there are up to the limit. The weight is the score of the checks and offers of the last fifteen minutes, between 0 and 400, without overflow; an interested node is left out only after at least twenty recent troubles.", "quantifier": "all histories of the census, content keys, limits, times and random choices", "why_tests_cant": "Scores depend on histories, and the choice is random.", "anchors": ["bin/portal-bridge/src/census/scoring.rs: AdditiveWeight, PeerSelector", "bin/portal-bridge/src/census/network.rs: select_peers"]}
{"id": "C86", "title": "Every block is executed with the rules of its time", "statement": "The rules chosen for a block number are those of the newest mainnet fork at or before that block, and a fork's rules are in force exactly from its block on; replay-protected legacy transactions and the random value of the beacon chain are used exactly from their forks on.", "quantifier": "all block numbers and forks", "why_tests_cant": "The table has an edge at every fork, for all 64-bit numbers.", "anchors": ["crates/evm/src/spec_id.rs: get_spec_id, get_spec_block_number, is_enabled", "crates/evm/src/tx_env_modifier.rs", "crates/evm/src/lib.rs: create_block_env"]}
{"id": "C87", "title": "A block credits exactly its rewards and moves the DAO's funds once", "statement": "After a block's transactions every account's balance grows by exactly what the protocol pays to it: the block reward and a thirty-second of it for each uncle to the miner, the share by age to each uncle's miner, and withdrawals. At the DAO fork the listed accounts are emptied into the refund contract. The total supply changes by exactly what is paid.", "quantifier": "all blocks with at most 8 generations old uncles, states, and orders of the map of payments", "why_tests_cant": "The sum over all accounts of every block depends on who coincides with whom.", "anchors": ["bin/trin-execution/src/evm/post_block_beneficiaries.rs: get_post_block_beneficiaries", "bin/trin-execution/src/evm/dao_fork.rs: process_dao_fork", "bin/trin-execution/src/evm/block_executor.rs: increment_balances"]}
{"id": "C88", "title": "Slices divide the key space", "statement": "With n slices every key of 64 nibbles is in exactly one, slice i has the keys from i*z to (i+1)*z-1 with z the n-th part of the space rounded up, and a shorter path is inside a slice if and only if some key that goes on from it is.", "quantifier": "all counts of slices, indices, keys and paths", "why_tests_cant": "There are 2^256 keys.", "anchors": ["bin/trin-execution/src/trie_walker/filter.rs: Filter", "bin/trin-execution/src/utils.rs: nibbles_to_right_padded_b256"]}
{"id": "C89", "title": "A walk visits every node of a trie once, in order, with its proof", "statement": "A walk over a database that has a trie ends, and its items are exactly the nodes that have an entry of their own, each once, a node before what is below it and smaller nibbles first. Each item is accepted as a proof of its node against the root. With a slice these are the nodes with a key of the slice behind them; over the nodes that a block changed, those to which nothing on the way is missing.", "quantifier": "all tries, databases, slices and subsets of changed nodes", "why_tests_cant": "Tries have any shape and size.", "anchors": ["bin/trin-execution/src/trie_walker/mod.rs: TrieWalker", "bin/trin-execution/src/types/trie_proof.rs: TrieProof"]}
{"id": "C90", "title": "The state bridge sends everything, only valid content, and nothing twice", "statement": "From a whole state, or from what a block changed, the bridge's contents are determined, every one of them is accepted by a node that knows the state root of the block, no key occurs twice, and every account node, bytecode and storage node is among them. Of several bridges exactly one offers each content.", "quantifier": "all states, blocks, sets of changed nodes and numbers of bridges", "why_tests_cant": "Proofs are built from walks over tries of any shape.", "anchors": ["bin/portal-bridge/src/bridge/state.rs: gossip_whole_state_snapshot, gossip_trie_diff", "bin/trin-execution/src/content.rs", "bin/trin-execution/src/utils.rs: full_nibble_path_to_address_hash", "bin/portal-bridge/src/cli.rs: BridgeId::is_selected"]}
{"id": "C91", "title": "Reads of the execution database return what was committed", "statement": "After any history of executed blocks and committed bundles of changes, reading an account, a storage slot, a code or a block hash returns the newest value committed for it: deleted accounts are gone, wiped or zeroed slots are zero, and nothing else is disturbed.", "quantifier": "all histories, addresses, slots, codes and block numbers", "why_tests_cant": "Histories have any length; changes to one account meet those to another in one key space.", "anchors": ["bin/trin-execution/src/storage/evm_db.rs: EvmDB, commit_bundle, basic_ref, storage_ref, code_by_hash_ref, block_hash_ref", "bin/trin-execution/src/storage/account_db.rs", "bin/trin-execution/src/evm/block_executor.rs: process_genesis"]}
{"id": "C92", "title": "A commit is accepted exactly with the right state root and survives a restart", "statement": "A commit succeeds exactly if the header's state root is the root of a trie over exactly the accounts and slots that reads return. Then the position is that of the next block, and a restarted node has the same position, the same state root and the same reads.", "quantifier": "all histories, headers, bundles and moments of a crash", "why_tests_cant": "The trie, the flat entries and the position are written separately.", "anchors": ["bin/trin-execution/src/execution.rs: TrinExecution::new, commit", "bin/trin-execution/src/storage/execution_position.rs", "bin/trin-execution/src/evm/block_executor.rs: commit_bundle"]}
{"id": "C93", "title": "The hashes of the last 256 blocks are served", "statement": "While blocks are executed one after another from genesis, the hash of a block is returned exactly while it is one of the last 256, and all hashes that the EVM may ask for in the next block are there.", "quantifier": "all chains and block numbers", "why_tests_cant": "The window moves with every block.", "anchors": ["bin/trin-execution/src/evm/block_executor.rs: manage_block_hash_serve_window", "bin/trin-execution/src/storage/evm_db.rs: block_hash_ref"]}
{"id": "C94", "title": "Blocks are executed one after another, each once", "statement": "While all calls succeed, trin-execution executes the blocks of the chain in order from its position on, without gap or repetition, commits only blocks it has just executed, and ends a call exactly after the block it was asked for or at a stop signal. A restart continues at the committed position. Reads are those of exactly these blocks.", "quantifier": "all chains, files, sequences of calls, stop signals and moments of a restart", "why_tests_cant": "Blocks come in files of 8192 that are fetched ahead; the position, the supply of blocks and the database advance separately.", "anchors": ["bin/trin-execution/src/e2hs/manager.rs: E2HSManager", "bin/trin-execution/src/e2hs/types.rs: ProcessedE2HS", "bin/trin-execution/src/execution.rs: process_next_block, process_range_of_blocks"]}
{"id": "C95", "title": "A snapshot carries the whole state to another node", "statement": "A node that has committed a block exports its state as a list of items; a new node that imports it has the same accounts, slots and codes, the hashes of the last blocks, the position after that block, and executes all further blocks like the first. Any file that is accepted has the state root of its header, and all accounts of that state are read as the file says.", "quantifier": "all histories, all files, all contents of the database before the import", "why_tests_cant": "Accounts have any number of slots in chunks; files may come from anyone.", "anchors": ["bin/trin-execution/src/subcommands/e2ss/export.rs: StateExporter", "bin/trin-execution/src/subcommands/e2ss/import.rs: StateImporter"]}
{"id": "C96", "title": "Balances, code and storage read over the network are those of the block", "statement": "A node without any state answers eth_getBalance, eth_getCode and eth_getStorageAt, and the reads of eth_call, by walking the tries of a block over the Portal state network. Whatever peers answer, a reply is what the state of that block says, or an error, and the walk ends. If the network has the contents of the state, every balance, every code and every slot is answered.", "quantifier": "all states, addresses, slots, codes, sequences of queries and answers of peers", "why_tests_cant": "Tries of any shape and depth are read node by node from untrusted peers, with a cache that is shared by all reads of a call.", "anchors": ["crates/rpc/src/evm_state.rs: EvmBlockState", "crates/rpc/src/eth_rpc.rs: get_balance, get_storage_at, get_code"]}
{"id": "C97", "title": "The eth_ methods show blocks and states of the chain", "statement": "A node that follows the chain only through validation answers eth_getBlockByHash and eth_getBlockByNumber with a block of the chain that has the hash or number asked for, with the transactions, uncles and withdrawals that its header commits to, or with an error. eth_getBalance, eth_getStorageAt and eth_getCode answer for the state of the block that was named.", "quantifier": "all chains, histories of the node, answers of peers, block identifiers, addresses and slots", "why_tests_cant": "Header, body and state are looked up one after another and any of them may come from the store or from any peer; what links them is only hashes.", "anchors": ["crates/rpc/src/eth_rpc.rs: get_block_by_number, get_block_by_hash, get_balance, get_storage_at, get_code, fetch_block, evm_block_state", "crates/portalnet/src/overlay/service/find_content.rs"]}
{"id": "C98", "title": "eth_call executes what was asked, on the state of the block that was named", "statement": "A result of eth_call is the output of executing the transaction of the request in the named block: the EVM gets the fields of the request, with the gas limit of the block and its base fee as defaults, the environment of the header and the rules of its number, and everything it reads is what the state of that block says. It ends with such a result or with an error, whatever peers answer.", "quantifier": "all requests, blocks, EVMs, states and answers of peers", "why_tests_cant": "The execution interleaves with reads over the network that depend on what was read before, and any of them may fail or be answered by an adversary.", "anchors": ["crates/rpc/src/eth_rpc.rs: call", "crates/evm/src/async_db.rs: execute_transaction, WrapAsyncDatabase", "crates/evm/src/lib.rs: create_block_env, create_evm", "crates/evm/src/tx_env_modifier.rs: TxEnvModifier for TransactionRequest"]}
{"id": "C99", "title": "Blocks are executed transaction by transaction, as their headers and transactions say", "statement": "Executing a block leads to exactly one state: the call of the beacon roots contract (from Cancun on), then every transaction in order, given to the EVM with its own type, sender, nonce, gas, prices, recipient, value, data, access list, blobs and chain, on the state that the ones before have left, then the payments; and only if the gas that was used is what the header says. Tracing and what was executed before do not change the result.", "quantifier": "all blocks, states, EVMs, previous blocks and choices of traced transactions", "why_tests_cant": "One field of one transaction type that keeps the value of the transaction before changes the state only for certain histories, which no list of test blocks covers.", "anchors": ["bin/trin-execution/src/evm/block_executor.rs: execute_block_with_tracer, execute_transaction, set_evm_environment", "bin/trin-execution/src/evm/pre_block_contracts.rs: apply_beacon_root_contract", "crates/evm/src/tx_env_modifier.rs", "crates/evm/src/lib.rs: create_block_env, create_evm_with_tracer"]}
{"id": "C100", "title": "Execution blocks built from beacon blocks are right and are accepted by the network", "statement": "From a beacon block of Bellatrix, Capella, Deneb or Electra a header, a body and a proof are built exactly if its transactions can be decoded and the header that the block describes has the hash that the block names; the header has every field that the fork prescribes and no other. If the beacon block is in the canonical chain, then the header with the proof is accepted by the validators of the history network at any time, and so is the body for that header. Building stops the program only for a base fee of 2^64 or more.", "quantifier": "all beacon blocks of the four forks, all canonical chains, all slots, all reachable states of the validator", "why_tests_cant": "The header has twenty-one fields that depend on the fork, and the proof has up to 25 nodes that depend on the slot; tests look at one block per fork.", "anchors": ["crates/ethportal-api/src/types/execution/builders/header.rs: bellatrix, capella, deneb, electra", "crates/ethportal-api/src/types/execution/builders/block.rs: build, decode_transactions", "crates/ethportal-api/src/types/consensus/execution_requests.rs: requests_hash", "crates/ethportal-api/src/types/consensus/beacon_block.rs", "crates/ethportal-api/src/types/consensus/execution_payload.rs"]}
{"id": "C101", "title": "A history file that is written has the blocks of its index and only blocks of the chain", "statement": "If writing the file with an index from the servers ends with success, then the file has exactly the 8192 blocks of the index in order, each with the body and the receipts that its header commits to; if the accumulators are canonical and the era files have no wrong summaries, every block is in the canonical chain; and reading the file gives the same blocks back. The search among the era files finds the file with a wanted block if there is one and reports an error otherwise. If the servers have all of the blocks, in at most three files, then the file is written. A run that fails can be repeated, and every run ends.", "quantifier": "all answers of all servers, all indices, all contents of the directory, all numbers of steps", "why_tests_cant": "The answers come from four servers in files of up to 8192 blocks each; a test needs the network and looks at a file or two, not at files that end early, are missing or are wrong.", "anchors": ["bin/e2hs-writer/src/subcommands/single_generator/e2hs_builder.rs: E2HSBuilder", "bin/e2hs-writer/src/subcommands/single_generator/provider.rs: EraProvider", "bin/e2hs-writer/src/subcommands/single_generator/era_binary_search.rs: EraBinarySearch::fetch_era_file", "bin/e2hs-writer/src/subcommands/full_block.rs: validate_block", "crates/ethereum-rpc-client/src/execution.rs: get_receipts_range"]}
{"id": "C102", "title": "The files written at the head of the chain follow each other and have only blocks of the chain", "statement": "Whatever the servers answer, the files that the program at the head of the chain uploads have consecutive indices from the one it began with, and each has exactly the 8192 blocks of its index in order, each with the body and the receipts that its header commits to; if the state summaries it was given are right, every block is in the canonical chain. If the servers have the blocks of the next file and the states after their periods, the file is written, wherever slots are empty. A restart continues after the last uploaded file. Every attempt ends, and a failure is reported.", "quantifier": "all answers of all servers in every round, all numbers of rounds, all positions of empty slots", "why_tests_cant": "The program runs for months against a consensus node, an execution node and a bucket; a test cannot wait for a period with an empty first slot or a listing that breaks off.", "anchors": ["bin/e2hs-writer/src/subcommands/head_generator/mod.rs: HeadGenerator", "bin/e2hs-writer/src/subcommands/head_generator/e2hs_builder.rs: E2HSBuilder", "bin/e2hs-writer/src/subcommands/head_generator/s3_bucket.rs: S3Bucket::last_file_name", "bin/e2hs-writer/src/subcommands/full_block.rs: validate_block"]}
{"id": "C103", "title": "The bridge from history files offers the blocks of its range, all of them and no others", "statement": "Given the files of its range, the bridge offers every block of the range whose proof and parts are right, no block twice, each with its four contents: the header by hash, the header by number, the body and the receipts, under the right keys. The other contents of a block follow only when the offers of its header by hash are over. There are never more open offers, or more blocks begun, than the limit. There is always a next step until the report, which comes once, at the end, and counts every answer. Whatever the server sends, nothing is offered but blocks whose body and receipts are those of the header; a header whose proof needs no historical summaries is in the canonical chain, and the nodes accept what is offered.", "quantifier": "all ranges, all files and servers, all selections of peers and their answers, all schedules of the tasks", "why_tests_cant": "The bridge runs thousands of concurrent tasks for days against peers that answer when they like; a test sees one order of events and a few blocks.", "anchors": ["bin/portal-bridge/src/bridge/e2hs.rs: E2HSBridge", "bin/portal-bridge/src/types/range.rs: block_range_to_epochs", "bin/portal-bridge/src/bridge/offer_report.rs: GlobalOfferReport", "crates/e2store/src/utils.rs: get_e2hs_files", "crates/e2store/src/e2hs.rs: E2HSMemory::iter_tuples"]}
{"id": "C104", "title": "The bridge at the head of the chain gossips the blocks of the chain, and with proofs when a period is over", "statement": "For every attested header the bridge gossips the block and the twelve before it, each the parent of the one after, with the header and body of its payload and the receipts of the block. Along a chain without re-orgs, with clients that serve it, the bridge does not stop, and gossips the thirteen blocks for each attested header that is at most 19 blocks behind the head. When the block in the first slot of a period is finalized, all blocks of the period that were seen are gossiped by hash and by number, once, with proofs that every node accepts. Nodes accept the bodies and receipts for headers they find.", "quantifier": "all histories of heads, attested headers and checkpoints, all answers of both clients, all chains, with and without overflow checks", "why_tests_cant": "What is gossiped depends on the whole history of events, on re-orgs and on which slots are empty; tests cannot go through the histories, and a period lasts 27 hours.", "anchors": ["bin/portal-bridge/src/bridge/ephemeral_history/mod.rs: EphemeralHistoryBridge", "bin/portal-bridge/src/bridge/ephemeral_history/ephemeral_bundle.rs: EphemeralBundle", "bin/portal-bridge/src/bridge/ephemeral_history/gossiper.rs: Gossiper"]}
{"id": "C105", "title": "Arguments of the command lines mean what they say", "statement": "A mode, a range of blocks, the number of a bridge, a block to trace, a list of subnetworks, a network, a private key or a trusted root is accepted exactly if it is written as documented, and then it means what is written; every mode can be given. If the bridges of a set are given their numbers, each content belongs to exactly one of them. A bridge runs with the subnetworks it depends on, and does what its subnetwork and mode say or is refused.", "quantifier": "all strings, all numbers of 64 bits, all combinations of arguments", "why_tests_cant": "There are infinitely many strings; tests try a handful and miss those with signs, leading zeros, missing parts or other characters.", "anchors": ["bin/portal-bridge/src/types/mode.rs: BridgeMode, ModeType", "bin/portal-bridge/src/bridge/e2hs.rs: BlockRange", "bin/portal-bridge/src/cli.rs: BridgeId", "bin/portal-bridge/src/main.rs: main", "bin/portal-bridge/src/handle.rs: subnetworks_flag", "crates/utils/src/cli.rs: check_private_key_length, network_parser, subnetwork_parser", "bin/trin-execution/src/types/block_to_trace.rs: BlockToTrace", "crates/ethportal-api/src/types/network.rs: Subnetwork"]}
{"id": "C106", "title": "The beacon bridge offers what is new, once, under its key", "statement": "Whatever the interleaving of its tasks, everything the bridge of the beacon subnetwork offers is what the consensus client gave for that key, is offered to the peers the census selected, and is accepted by every node whose light client accepts it. A tick that finds something new of each type offers all of it. When ticks do not overlap, no finality update or period is offered twice, and at most one bootstrap and one state are loaded at a time.", "quantifier": "all interleavings of the tasks of all ticks, all answers of the consensus client, the census and the clock, all failures", "why_tests_cant": "Ticks overlap when the client is slow, so that the order of checks and updates matters; tests do not run the tasks concurrently and do not let requests fail in between.", "anchors": ["bin/portal-bridge/src/bridge/beacon.rs: BeaconBridge", "crates/ethportal-api/src/types/consensus/beacon_state.rs: build_historical_summaries_proof", "crates/subnetworks/beacon/src/validation.rs: validate_content"]}
{"id": "C107", "title": "A node keeps its identity, its directory and its checkpoint across restarts and crashes", "statement": "Once a node without a key of its own has run with a key, all its later starts in the same data directory run with that key, whatever other starts, networks, given keys and crashes are in between. A key that is given is the one that is used, and does not replace the other. A node has a directory of its own for each network. The light client loads the checkpoint that was saved last, and never a part of one. A crash at any moment does no lasting harm.", "quantifier": "all sequences of starts, all keys, networks and moments at which a process stops", "why_tests_cant": "Tests restart once, without crashes; a crash while a file is being written happens at one of many moments, and collisions of names are rare.", "anchors": ["crates/portalnet/src/utils/db.rs: configure_trin_data_dir, configure_node_data_dir, get_application_private_key, get_node_data_dir", "crates/utils/src/dir.rs: setup_data_dir", "crates/light-client/src/database.rs: FileDB"]}
{"id": "C108", "title": "Requests and events reach the subnetworks they are for", "statement": "A request of another node goes to the subnetwork whose protocol it names, if that is running, and is answered by it; everything else is answered with nothing. Between nodes of one network a request arrives at the subnetwork that sent it; nodes of different networks do not serve each other. An event goes to the subnetworks it is for, once, and never back. Each subnetwork finds its requests and events in the order of arrival, none lost or doubled.", "quantifier": "all protocol identifiers, requests, events, networks, sets of running subnetworks and orders of arrival", "why_tests_cant": "Identifiers are arbitrary byte strings and arrivals come in any order; tests send a few to one subnetwork.", "anchors": ["crates/portalnet/src/events.rs: PortalnetEvents", "crates/ethportal-api/src/types/network_spec.rs: NetworkSpec, MAINNET, ANGELFOOD, SEPOLIA", "crates/portalnet/src/discovery.rs: send_talk_req, Discv5UdpSocket", "crates/subnetworks/beacon/src/events.rs: BeaconEvents", "crates/subnetworks/state/src/events.rs: StateEvents", "crates/subnetworks/legacy-history/src/events.rs: LegacyHistoryEvents", "crates/portalnet/src/overlay/protocol.rs: process_one_request"]}
{"id": "C109", "title": "The light client starts from the checkpoint that most services report for the latest epoch", "statement": "Among the checkpoint services that are up and answer, the root taken is one reported for the latest epoch that any of them reports, and no root is reported by more of them for that epoch. A root is found exactly if some healthy service reports one, and asking never crashes. At its start the client tries the checkpoint of its configuration, else the stored one; the fallback and the external services are asked only if that is too old.", "quantifier": "all lists of services, all their answers, orders of a hash map, configurations and outcomes of synchronisation", "why_tests_cant": "Services are outside of the code and may answer anything; ties, lying minorities and empty answers do not occur in tests.", "anchors": ["crates/light-client/src/config/checkpoints.rs: CheckpointFallback, CheckpointFallbackService", "crates/light-client/src/client.rs: Client, boot_from_fallback, boot_from_external_fallbacks"]}
{"id": "C110", "title": "The trace of a lookup says what happened in it", "statement": "The trace knows exactly the nodes that answered or were named, each with the newest record seen, the one that the node sent itself if equal, and with its distance to the content. It says when each node answered or sent content, which nodes it named, and how it failed last. The source is the node whose content ended the lookup first. Every node is listed under one other at most, once; as long as no node sent content, every node the lookup knows is listed. Content of the node itself is traced as coming from itself.", "quantifier": "all sequences of answers, failures and ends, all records, clocks and orders", "why_tests_cant": "Answers of many nodes interleave in any order, repeat nodes and bring records of other versions; tests trace a few calls.", "anchors": ["crates/ethportal-api/src/types/query_trace.rs: QueryTrace", "crates/portalnet/src/overlay/service/find_content.rs: init_find_content_query", "crates/portalnet/src/overlay/service/manager.rs: OverlayService"]}
{"id": "C111", "title": "A lookup of nodes returns the records of the nearest nodes that answered", "statement": "A lookup of nodes asks known nodes only, each once, nearer ones first, for distances around the distance of that node to the target, with a record of that very node: of the discovery, else of the routing table, else told to a lookup. It leaves out no node but the target. Its result has the records of the nearest nodes that answered, nearest first, each record the first one told for its node; if it is not cut off by the clock then every nearer node that was named was contacted, and every node if the result is not full. It never crashes. Without nodes in the routing table the result is empty.", "quantifier": "all routing tables, records, answers of nodes (also late, repeated, or naming the local node), orders and times of polls, numbers of distances up to 127", "why_tests_cant": "Nodes may name any records, of any node and version, in any order; the maps of records and the state of the search are separate and have to agree in every interleaving.", "anchors": ["crates/portalnet/src/overlay/service/find_nodes.rs: handle_find_nodes_query_event, advance_find_node_query, init_find_nodes_query", "crates/portalnet/src/overlay/service/manager.rs: OverlayService::find_enr, query_event_poll", "crates/portalnet/src/find/query_info.rs: QueryInfo::rpc_request"]}
{"id": "C112", "title": "Joining the network", "statement": "At its start a node puts every bootnode that its routing table takes, other than itself, into the table, not yet connected, and into the queue of nodes to be pinged. The ids it means to look up are its own and one at each logarithmic distance from 239 to 255. Afterwards each refresh starts exactly one lookup if some peer is connected and none otherwise, for a random id at the logarithmic distance drawn, 240 to 256, starting with the connected peers nearest to it, never with the node itself. Once any bootnode has answered, the next refresh starts a lookup.", "quantifier": "all node ids, lists of bootnodes, decisions of the table, random numbers, histories of the routing table", "why_tests_cant": "The ids are random, and the table at a refresh depends on everything that happened before.", "anchors": ["crates/portalnet/src/overlay/service/manager.rs: OverlayService::initialize_routing_table, add_bootnodes, bucket_refresh_lookup", "crates/portalnet/src/overlay/service/find_nodes.rs: init_find_nodes_query", "crates/ethportal-api/src/types/node_id.rs: generate_random_node_id"]}
{"id": "C113", "title": "What users get over JSON-RPC", "statement": "For content the user gets what the search found, with its trace if asked for; error -39001 with the trace exactly if the search ended without content; error -32099 otherwise. Content of the local store is given as it is. Storing answers true exactly if the content was well-formed and was stored, never false, else an error. Offers carry one to 64 well-formed items, in their order, unchanged if encodings are unique. A single peer's content or records are given as it sent them. Pings have a type of the network and a payload of that type; other requests have the error for their fault (-39004, -39005, -39006). If a subnetwork does not answer there is an error.", "quantifier": "all networks, results of searches, stores and peers, contents, keys, payloads, texts of errors", "why_tests_cant": "The code of an error depends on whether its text has a phrase and can be read as JSON, for every text there may be.", "anchors": ["crates/rpc/src/fetch.rs: proxy_to_subnet", "crates/rpc/src/errors.rs: RpcServeError", "crates/rpc/src/ping_extension.rs: parse_ping_payload", "crates/rpc/src/legacy_history_rpc.rs", "crates/subnetworks/legacy-history/src/jsonrpc.rs: get_content, local_content, store, find_content", "crates/subnetworks/state/src/jsonrpc.rs", "crates/subnetworks/beacon/src/jsonrpc.rs"]}
{"id": "C114", "title": "Starting a node and the methods it serves", "statement": "A node runs exactly the enabled networks and does not start if the set-up of one fails. Each of its JSON-RPC servers serves exactly the methods for discovery and the version, those of the networks that run, each answered by the task of its network, and those of eth if the history network runs, every name once. It listens at the configured socket file, or at the configured address for HTTP and, if asked for, at the configured port for WebSockets, in one server if both are at one address; whenever the system grants this, it starts. Whatever modules a user of the library selects for HTTP, WebSockets and IPC, each server serves exactly those selected for it; a start with a conflict is refused. Origins that pages may come from are those listed.", "quantifier": "all lists of networks, configurations, selections of modules, systems granting or refusing addresses, results of set-ups, texts of origins", "why_tests_cant": "Combinations of transports, addresses, networks and selections, and what the system does with each address, cannot be enumerated.", "anchors": ["bin/trin/src/run.rs: run_trin_internal", "crates/rpc/src/lib.rs: launch_jsonrpc_server", "crates/rpc/src/builder.rs: RpcModuleBuilder, RpcModuleSelection", "crates/rpc/src/rpc_server.rs: RpcServerConfig, WsHttpServers", "crates/rpc/src/cors.rs: create_cors_layer", "crates/ethportal-api/src/beacon.rs", "crates/ethportal-api/src/legacy_history.rs", "crates/ethportal-api/src/state.rs"]}
{"id": "C115", "title": "Asking the providers of data", "statement": "Whatever two providers of beacon or execution data do, an answer is what the first sent, in the format it names, or, only if it failed, what the second did; a provider that fails in passing is asked up to four times, receipts that are not there yet up to five times. Different requests go to different places, of the configured provider. A block is the one asked for, receipts and bodies belong to their block, also if asked for in batches. Secrets go to the operator they belong to only. A stream of events yields all events that can be read, in order. Unreachable providers do not stop a start.", "quantifier": "all behaviours of both providers over all histories of requests, all requests, heights, URLs, environments, replies with any status, header and body, all streams", "why_tests_cant": "Two providers that fail, recover and answer anything at any point of a history cannot be enumerated; tests use a fixed healthy one.", "anchors": ["crates/ethereum-rpc-client/src/http_client.rs: ClientWithBaseUrl, get_authorization_headers", "crates/ethereum-rpc-client/src/consensus/mod.rs: ConsensusApi", "crates/ethereum-rpc-client/src/consensus/rpc_types.rs: VersionedDataResult", "crates/ethereum-rpc-client/src/consensus/event.rs: BeaconEvent", "crates/ethereum-rpc-client/src/execution.rs: ExecutionApi"]}
{"id": "C116", "title": "Runs of the state bridge", "statement": "A run over a range of blocks offers the state of exactly these blocks, in order and from the first on, each under its own block with its state root and only with its own changes; an error leaves the first of them, success means all, genesis included. A run for a snapshot offers the state with the root of the header of the file under the hash of the block of the chain with its number, and the same again whenever it is launched again, without a download.", "quantifier": "all ranges, all chains, all contents of the files of blocks that carry the chain, failures of downloads, executions and offers at any point; all snapshots, disks and replies of servers, any number of later launches", "why_tests_cant": "Which block a failure hits and what the disk holds at the start cannot be enumerated; tests do not run the state bridge against anything.", "anchors": ["bin/portal-bridge/src/bridge/state.rs: StateBridge::launch_state, launch_snapshot, gossip_trie_diff, gossip_whole_state_snapshot", "bin/trin-execution/src/subcommands/e2ss/import.rs: StateImporter"]}
{"id": "C117", "title": "From the light client to the head of the chain", "statement": "However updates arrive and however the task that follows them is scheduled, what the node takes to be the latest and the finalized header of the beacon chain is what it had at the start or a header of an update that the light client verified; it never runs ahead of the light client, and as soon as nothing waits it is as far as the light client, even if it missed updates, provided these came in order. The light client gets ten attempts to start.", "quantifier": "all states of the client and of the head, all lists of updates, valid or not, and all interleavings of arrivals, readings and new historical summaries; all outcomes of the attempts to start", "why_tests_cant": "The channels keep only the last value, so what is lost depends on the schedule; no test runs the light client and the head of the chain together.", "anchors": ["crates/light-client/src/consensus/consensus_client.rs: apply_update, apply_finality_update, apply_optimistic_update", "crates/light-client/src/watch.rs: LightClientWatchSenders::subscribe", "crates/subnetworks/beacon/src/network.rs: BeaconNetwork::new", "crates/subnetworks/beacon/src/sync.rs: BeaconSync::start", "crates/validation/src/chain_head/mod.rs: ChainHead::process_update"]}
{"id": "C118", "title": "Starting the light client", "statement": "A light client starts from the checkpoint that was set, else from that of its configuration, else from the one that was saved, else from a default, also after a crash while one was saved. A start succeeds exactly if a sync did, turns to a service for checkpoints only if the own checkpoint is too old and a service was set or allowed, and without one the client never trusts another root, however often it is started. Afterwards it asks for updates once in every slot.", "quantifier": "all builders, configurations and files on disk, all crash points of a save, all numbers of starts with all outcomes of syncs and answers of services; all times", "why_tests_cant": "The outcomes of several starts in a row with services that answer or not and syncs that fail or not are too many to test; the tests run one sync with fixed data.", "anchors": ["crates/light-client/src/client.rs: ClientBuilder::build, ClientBuilder::build_with_rpc, Client::start, boot_from_fallback, boot_from_external_fallbacks", "crates/light-client/src/database.rs: FileDB", "crates/light-client/src/consensus/consensus_client.rs: duration_until_next_update"]}
{"id": "C119", "title": "The address of a node and the records of other nodes", "statement": "The record of a node shows the address that the gateway gives, else the one that the user gives, else the one that the STUN server reports; a start is refused if the user and the gateway disagree. A later start has a greater sequence number. The cache of addresses never grows beyond its size, has for a node what the last session with it brought, and keeps it until as many other nodes have been used as there is room for. Asking for, deleting and looking up a record never gives the record of another node. The port of the gateway stays mapped as long as the renewals go well.", "quantifier": "all settings, all answers of STUN servers and gateways, all histories of sessions and requests, all lists of nodes that a search returns and all their answers, all delays of renewals", "why_tests_cant": "The sources of the address and the histories of sessions are too many to test; the tests start nodes with local addresses only and need a gateway for the rest.", "anchors": ["crates/portalnet/src/discovery.rs: Discovery::new, Discovery::find_enr, cached_node_addr, put_cached_node_addr, UtpPeer::consolidate, Discv5UdpSocket", "crates/portalnet/src/socket.rs: is_local_addr, upnp_for_external", "crates/rpc/src/discv5_rpc.rs: get_enr, delete_enr, lookup_enr"]}
{"id": "C120", "title": "The tools of the bridge: spaced keys, pace and reports", "statement": "Of the keys that are made for the nodes of a bridge any two have ids further apart than half of an even share of all distances. The bridge for the beacon network waits until the first time that is four seconds into a slot and from then on serves each slot once, unless it is a slot late. For each content it prints one report, when all selected peers have answered or failed, that says who accepted, who declined why and who failed.", "quantifier": "all numbers of keys and random draws, all readings of the clock and delays, all sets of peers and orders and kinds of answers", "why_tests_cant": "The draws, the clock and the orders of answers cannot be enumerated; the tests check one pair of keys for three counts.", "anchors": ["bin/portal-bridge/src/utils.rs: generate_spaced_private_keys, duration_until_next_update", "bin/portal-bridge/src/bridge/beacon.rs: BeaconBridge::launch_latest, spawn_offer_tasks", "bin/portal-bridge/src/bridge/offer_report.rs: OfferReport"]}
{"id": "C121", "title": "The check of a snapshot of the state", "statement": "The tool that checks a snapshot file succeeds exactly if the file is a list of accounts, each followed by all of its storage, with growing hashes of addresses, the right codes and growing hashes of slots in parts that are full but for the last. It then prints how many accounts, codes, parts and slots there are. Every file that an export makes passes.", "quantifier": "all lists of records of a file, all ways the reading of a file can end, all states that are exported", "why_tests_cant": "The lists are not bounded and a part is full at ten million slots only; there are no tests of the tool.", "anchors": ["crates/e2store/src/bin/e2ss-stats.rs: main", "crates/e2store/src/e2ss.rs: E2SSReader, MAX_STORAGE_ITEMS", "bin/trin-execution/src/subcommands/e2ss/export.rs: StateExporter::export"]}
{"id": "C122", "title": "What nodes say of their protocol and the version they choose", "statement": "What a node says of its versions and its chain is read again by every other node, also by one that does not know the fields a newer node adds, and nothing else is read. Two nodes of one chain choose the greatest version that both have, and both choose the same; they have none exactly if their intervals do not meet or the chains differ.", "quantifier": "all intervals of versions, all chain ids, all bytes that follow, all inputs to the decoder", "why_tests_cant": "There are 2^80 values and no bound on the fields a newer node may add; the tests decode four literals and do not test the choice of a version at all.", "anchors": ["crates/ethportal-api/src/types/protocol_info.rs: ProtocolInfo::new, supports, highest_common_protocol_version, Encodable, Decodable", "crates/ethportal-api/src/types/protocol_versions.rs: ProtocolVersion"]}
{"id": "C123", "title": "What a node reports of itself", "statement": "The numbers a node reports are true: the streams that are shown as active are those that go on, each transfer ends up in exactly one of the outcomes and each caller is told that outcome, the counts of messages and validations are those of what was sent, received and checked, the slots and lags of the chain head are those of its headers at the last slot, the radius is shown to within 2^-31, and the number of entries of the beacon store is never below the number of its rows in one run.", "quantifier": "all orders in which transfers go on and end, all sequences of messages, of updates of the chain head and of slots, all radii, all sequences of what the beacon store is given", "why_tests_cant": "The numbers are sums over unbounded histories of tasks that run at the same time; no test looks at them.", "anchors": ["crates/metrics/src/overlay.rs: OverlayMetricsReporter", "crates/metrics/src/chain_head.rs: ChainHeadMetricsReporter", "crates/metrics/src/storage.rs: StorageMetricsReporter", "crates/portalnet/src/utp/controller.rs: UtpController::connect_inbound_stream, connect_outbound_stream", "crates/validation/src/chain_head/store.rs: ChainHeadStore", "crates/subnetworks/beacon/src/network.rs: get_slot_interval", "crates/subnetworks/beacon/src/storage.rs: BeaconStorage"]}
{"id": "C124", "title": "Beacon data in text", "statement": "Keys, signatures, commitments, blooms, extra data, fees and transactions that are written as text are read as the same values. A text is read exactly if it shows a value of the right length or range, and a text that shows none is refused and does not stop the program.", "quantifier": "all bytes and numbers that are written, all texts that are read", "why_tests_cant": "The texts come from providers and are not bounded; the tests read a few literals of the right length.", "anchors": ["crates/ethportal-api/src/types/consensus/pubkey.rs: PubKey", "crates/ethportal-api/src/types/consensus/signature.rs: BlsSignature", "crates/ethportal-api/src/types/consensus/kzg_commitment.rs: KzgCommitment", "crates/ethportal-api/src/types/consensus/serde.rs: de_number_to_u256, de_hex_to_txs, se_txs_to_hex, se_hex_to_number", "crates/ethportal-api/src/utils/serde: hex_fixed_vec, hex_var_list"]}
{"id": "C125", "title": "Where the light client gets its data", "statement": "The light client makes one request for each thing it needs, at the place the beacon API has for it or under the key the portal network has for it, never for more than 128 updates at a time. It takes an answer exactly if it is well formed and holds the data, updates in their order, and goes on with a provider exactly if that is of the configured chain. A wrong answer is an error and never stops the program.", "quantifier": "all roots, periods and counts, all answers of the provider or network in any history of requests, all chains and clocks", "why_tests_cant": "The tests use a mock that reads files; what a provider or peer sends is not bounded and can change with every request.", "anchors": ["crates/light-client/src/consensus/rpc/nimbus_rpc.rs: NimbusRpc", "crates/light-client/src/consensus/rpc/portal_rpc.rs: PortalRpc, expected_current_slot", "crates/light-client/src/consensus/consensus_client.rs: check_rpc", "crates/light-client/src/rpc.rs: EthRpc, NetRpc"]}
{"id": "C126", "title": "What the light client asks for, and when", "statement": "To catch up, the light client asks first whether its source is of its chain, then for the bootstrap of its checkpoint, then for the updates of every period from that of the checkpoint until now, then for the latest finality and optimistic updates, in this order and nothing else; it stops at the first thing that fails, and it has asked for all of them if it succeeds. To go on it asks for the latest updates, and for the committee of its period only if it does not know the next one. Whatever the source answers, and though every answer may depend on all that was asked before, a finalized header of another chain is never taken and the heads never go back.", "quantifier": "all sources, their answers to every question after every history of questions, all clocks, all numbers of advances with any changing sources", "why_tests_cant": "The tests sync once from files of one moment; sources that answer differently each time, and all lengths of the way to the head, are not tried.", "anchors": ["crates/light-client/src/consensus/consensus_client.rs: check_rpc, sync, advance, bootstrap", "crates/light-client/src/consensus/rpc/portal_rpc.rs: get_updates", "crates/light-client/src/consensus/rpc/nimbus_rpc.rs: get_updates", "crates/light-client/src/node.rs: sync, advance"]}
{"id": "C127", "title": "Storages of accounts and the state are apart in the one database of execution", "statement": "trin-execution keeps the state trie, the storage tries of all accounts, accounts, codes, block hashes and its position in one database. A storage trie reads exactly what was last written to this account's storage under this key; writes for other accounts, for the state and of the position do not change it, nor the other way round. What is written under its hash is found there with this hash as long as it is not removed, and the state trie removes nothing.", "quantifier": "all sequences of writes by all tries and for all accounts, in any order, all keys, addresses and values, all databases to start from", "why_tests_cant": "A test writes one key for one account; that no two areas ever meet is a fact about all keys and all orders.", "anchors": ["bin/trin-execution/src/storage/account_db.rs: AccountDB", "bin/trin-execution/src/storage/trie_db.rs: TrieRocksDB", "bin/trin-execution/src/storage/execution_position.rs: update_position", "bin/trin-execution/src/storage/evm_db.rs: EvmDB"]}
{"id": "C128", "title": "What a bridge reports of its offers", "statement": "The counter of offers for a kind of contents, a type of clients and a result is the number of the offers that ended so, in whatever order they ran; there is a series exactly for what has happened, and different results or clients never share one. Every offer that ends has one time, from its begin to its end. A timer of the storage is recorded once if it is stopped and never if the function returns early.", "quantifier": "all numbers of offers at once, all orders of their ends and of dropped tasks, all names of clients, all results, all clocks", "why_tests_cant": "The tests look at one timer; counters under concurrent offers and the names that peers may choose are not tried.", "anchors": ["crates/metrics/src/bridge.rs: BridgeMetricsReporter", "crates/metrics/src/timer.rs: DiscardOnDropHistogramTimer", "crates/ethportal-api/src/types/client_type.rs: ClientType", "bin/portal-bridge/src/bridge/ephemeral_history/gossiper.rs: send_offer, send_offer_with_header_series"]}
{"id": "C129", "title": "Which files a page lists", "statement": "The list of era, era1 or e2hs files that is read from a page has a file for every number from 0 on up to their count, no gap and no other number; of era1 files there are exactly 1897. Each file is that of the last link for mainnet with its number. Every page whose links are good and whose numbers have no gap is taken. Shuffling loses and doubles no file.", "quantifier": "all pages, all links on them, all orders of hash maps and shuffles", "why_tests_cant": "The tests need the real servers; what pages with gaps, doubled or malformed links do is not tried.", "anchors": ["crates/e2store/src/utils.rs: get_era_files, get_era1_files, get_e2hs_files, get_e2ss_files, get_shuffled_era1_files"]}
{"id": "C130", "title": "Files are uploaded whole or not at all", "statement": "An upload of a file to the bucket that reports success has put exactly the bytes of the file, as long as it was when its length was asked for, under its name, has changed no other name and left no upload open. One that reports an error leaves the old object, or the whole new one if only the last answer was lost; a part of a file never appears. If the server serves, every file that is not empty and has up to 10000 times 100 MiB is uploaded: no part is too small or too large and there are not too many.", "quantifier": "all files, all lengths, all requests that fail before or after being carried out, all contents of the bucket", "why_tests_cant": "The code has no tests for this; files of several hundred megabytes and requests that fail midway are not tried.", "anchors": ["bin/e2hs-writer/src/subcommands/head_generator/s3_bucket.rs: upload_file_from_path"]}
{"id": "C131", "title": "The names of files", "statement": "The number in the name of a history or state file is the number it was written for, for the writer that goes on after the last file and for every reader of a page of links; files with different numbers have different names. Names are in the order of the numbers, so a writer that starts again goes on after the file with the highest number, however the list of the bucket is cut into pages. A page with links to the history files 0 to n-1 in any order is read and every file found under its number.", "quantifier": "all numbers, all hashes, all pages of lists and links, in any order", "why_tests_cant": "The tests use a few names; that writer, list and readers agree for all numbers is not tried.", "anchors": ["crates/e2store/src/e2hs.rs: E2HSWriter::finish", "crates/e2store/src/e2ss.rs: E2SSWriter::create", "bin/e2hs-writer/src/subcommands/head_generator/mod.rs: extract_index_from_file_name, HeadGenerator::new", "crates/e2store/src/utils.rs: get_e2hs_files"]}
{"id": "C132", "title": "Downloads of files", "statement": "A history file whose body breaks off is asked for again, ten times at most, and the first whole body is taken as the file. A state file whose download succeeds holds every piece the server sent, in order; after a failure it holds the pieces before the failed one. The report of progress does not stop the program if the length is unknown, or if it is at most 16 TiB, no piece is empty and reports come at least about once an hour.", "quantifier": "all answers of the server to every attempt, all divisions of the body into pieces, all times between them", "why_tests_cant": "There is no test of either download; servers that break off, send empty pieces or announce absurd lengths are not tried.", "anchors": ["bin/trin-execution/src/e2hs/utils.rs: download_raw_e2store_file", "bin/trin-execution/src/subcommands/e2ss/utils.rs: download_with_progress"]}
