# Formal model of ethereum/trin in Rocq

Everything below is about the source in /repo at the pinned commit; the model lives in `rocq/theories` and is checked by Coq 8.16.1.

## Layout

For each area `X` there are up to four kinds of files: `X_Model.v` (definitions only, each citing the file and lines it models),
`X_Spec.v` (a small, independent vocabulary used in the statements), `X_Proofs.v` (lemmas) and `X_Props.v` (the property
theorems, each with `Print Assumptions`, and examples of concrete cases that meet their hypotheses).
A theorem `Cnn_...` belongs to property `Cnn` of `properties.jsonl`. The suffix `_partial` marks a theorem that is weaker than the
property it is listed for. The suffix `_refuted` marks a theorem that shows that the property, read literally, is false of the code: it
exhibits the failing case (usually for all inputs of a kind, not for one input). These are findings about the code; they are listed below.

## Modelling conventions

* bytes are `N` below 256, byte strings are `list N`; `bytes_ok` says every element is below 256
* `u16/u32/u64/U256` are `N`; wherever the code can wrap, truncate or panic the model says so explicitly
* `Result`/`Option` are data; a panic is an explicit constructor (`Panic` of `outcome`) and is never merged with an ordinary error
* hash functions, signature verification, RLP codecs of other crates, the order of SQL results among ties, random choices, clocks
  and everything peers and the network do are universally quantified arguments of the definitions, not axioms
* hash maps with unspecified iteration order are modelled with an arbitrary order
* concurrent code is modelled at the granularity of its locks: every step is what happens under one lock acquisition, and theorems
  quantify over all interleavings (lists of steps)
* where security rests on a hash, a theorem concludes "the claim holds, or these two named different inputs have the same hash"; the two
  inputs are always written out, since for a hash of fixed length some collision always exists

## Areas and what each models

* `AcceptCodes_Model.v` — Model of crates/ethportal-api/src/types/accept_code.rs and crates/ethportal-api/src/types/protocol_versions.rs, and of [NetworkSpec::latest_common_protocol_version] (crates/ethportal-api/src/types/network_spec.rs).
* `AcceptQueue_Model.v` — The queue of content keys that are being transferred: /repo/crates/portalnet/src/accept_queue.rs.
* `Args_Model.v` — The arguments of the command lines: /repo/bin/portal-bridge/src/types/mode.rs, cli.rs, handle.rs and main.rs, with bridge/e2hs.rs [BlockRange]; /repo/crates/utils/src/cli.rs; /repo/bin/trin/src/cli.rs; /repo/crates/ethportal-api/src/types/network.rs; /repo/bin/trin-execution/src/types/block_to_trace.rs. A string is its UTF-8 bytes. Messages of errors are left out. Not modelled: clap, URLs, socket addresses, paths, and the parser of 256-bit numbers (Capacity_Model has what is done with the number).
* `BeaconBridge_Model.v` — The bridge of the beacon subnetwork: /repo/bin/portal-bridge/src/bridge/beacon.rs. Every twelve seconds five tasks are started, one for each type of content. They share the last period, slot and roots that were served and two flags, each behind a lock that is held for one access. A task is modelled as the point it has reached: between two points there is one access to what is shared or one request, so every interleaving of the tasks of one or of several ticks is an execution. What the consensus client, the clock and the census answer is part of each step. A task that panics ends; the others go on (tokio). Offering the content to the peers that were selected, the report and the metrics are not modelled.
* `BeaconStore_Model.v` — The store and the validator of the beacon subnetwork: /repo/crates/subnetworks/beacon/src/storage.rs, validation.rs, network.rs:155-177, the queries in /repo/crates/storage/src/sql.rs and the content values in /repo/crates/ethportal-api/src/types/content_value/beacon.rs. The bodies of the values are SSZ containers of the consensus types. Their decoders are arguments: they give the parts that the store and the validator look at. Re-encoding a decoded value is taken to give the bytes it was decoded from (the decoders of [Ssz_Model] are canonical in this sense). Errors of the disk and the database are not modelled, except for integers SQLite cannot represent.
* `BeaconText_Model.v` — Beacon data in text, as providers of it send it: /repo/crates/ethportal-api/src/types/consensus/{pubkey,signature,kzg_commitment,serde}.rs and /repo/crates/ethportal-api/src/utils/serde/{hex_fixed_vec,hex_var_list}.rs. A string of JSON is its UTF-8 bytes, with the escapes of JSON undone. SHA-256 is an argument. Of the libraries: [FixedVector::from] and [VariableList::from] of ssz_types cut or fill with zeros, [FixedVector::new] and [VariableList::new] check the length; [U256::from_str_radix] of ruint skips underscores and reads no digits as 0. Not modelled: the structs around these fields, serde_this_or_that's [as_u64], and Merkle roots.
* `BlockExec_Model.v` — The execution of a block: /repo/bin/trin-execution/src/evm/block_executor.rs 53-95 and 150-237, and /repo/bin/trin-execution/src/evm/pre_block_contracts.rs. The EVM (revm), its database with the cache ([State<EvmDB>]), the genesis and the window of block hashes (ExecDb_Model.v) and the beneficiaries (Rewards_Model.v) are arguments: [transact] gives the gas that a transaction uses and the changes of accounts, [commit] applies changes to the database, with or without clearing empty accounts, [beneficiaries] drains the DAO accounts and says who is paid, [increment] pays, or fails and changes nothing. Gas is added without overflow.
* `BridgeMetrics_Model.v` — What a bridge reports of its offers, and timers: /repo/crates/metrics/src/{bridge,timer}.rs, /repo/crates/metrics/src/storage.rs:96-107, /repo/crates/ethportal-api/src/types/client_type.rs, accept_code.rs:168-180, ping_extensions/extensions/type_0.rs:61-69, and where offers are reported: /repo/bin/portal-bridge/src/bridge/ephemeral_history/gossiper.rs:229-299, 350-392, e2hs.rs:426-507, beacon.rs:505-580, state.rs:524-595. Counters are naturals (the code's [u64]) and times are in nanoseconds (the code's [f64] of seconds). Tasks end in any order or are dropped. [lower] is [str::to_lowercase]. Not modelled: buckets of histograms, the gauges of the bridge's mode and block.
* `BridgeTools_Model.v` — Tools of the bridge: /repo/bin/portal-bridge/src/utils.rs, bridge/offer_report.rs [OfferReport] and the pace of bridge/beacon.rs:108-134, 484-560. Ids are numbers of 256 bits. The random keys, the readings of the clock, the answers of peers and the order of a [HashMap] are arguments. Times are numbers of nanoseconds since the genesis of the beacon chain; an [Interval] of tokio is modelled by what its documentation says.
* `Builders_Model.v` — Execution blocks from beacon blocks: /repo/crates/ethportal-api/src/types/execution/builders/{header,block}.rs, with types/consensus/{beacon_block,body,execution_payload,execution_requests}.rs. The types of the four forks are one record here: the fields that a fork does not have are not read. The trees of the parts of a beacon block other than its payload are given by their roots. The codecs of alloy, its roots of tries, the hash of requests and the other SSZ roots are arguments.
* `Capacity_Model.v` — How a storage limit is split: /repo/crates/storage/src/config.rs. Not modelled: opening the SQL connection.
* `Census_Model.v` — The census of the bridge: the nodes of a network it knows, when they are to be checked, and which of them are chosen for an offer (bin/portal-bridge/src/census/{peer,peers,scoring,network}.rs). Answers of nodes, the nodes a search finds, the clock and the random choice are arguments. Time is in milliseconds. A check is one atomic step: between its reading and its writing of the known nodes another task can only record the result of an offer. Not modelled: logging, metrics, the sizes and durations kept with offers (never read), the parsing of the client's name, the three networks side by side (mod.rs keeps one such state for each), the interval between searches.
* `ChainHead_Model.v` — What the node takes to be the head of the beacon chain: /repo/crates/validation/src/chain_head/mod.rs and store.rs. The store is behind a lock and every public function takes the lock once, so calls from different tasks are a sequence of [step]s.
* `Checkpoints_Model.v` — Model of /repo/crates/light-client/src/config/checkpoints.rs (checkpoints from services) and of the start and the shutdown of the light client in /repo/crates/light-client/src/client.rs. A service is asked once and answers with slots, or not in time or not in JSON ([None]). The order of a HashMap is a parameter ([order]). The list of services comes from a server and is given. The sync of the consensus client from a checkpoint is a parameter (LightClient_Model has it).
* `DiscNode_Model.v` — The discovery layer of a node and its address: /repo/crates/portalnet/src/discovery.rs, socket.rs and /repo/crates/rpc/src/discv5_rpc.rs. The crates [discv5], [stunclient], [igd_next] and [lru] are outside: what a STUN server, the gateway, the routing table of discv5 and other nodes answer are arguments; the cache of [lru] is modelled as a list, most recently used first. Times are whole seconds.
* `Dispatch_Model.v` — Model of /repo/crates/portalnet/src/events.rs (the routing of TALKREQ requests and of events to the subnetworks), of the identifiers of protocols in /repo/crates/ethportal-api/src/types/network_spec.rs, of /repo/crates/portalnet/src/discovery.rs [send_talk_req], of /repo/crates/subnetworks/*/src/events.rs and of /repo/crates/portalnet/src/overlay/protocol.rs [process_one_request]. A handle that was not created, or whose subnetwork has ended, takes no messages ([on]). The queues do not lose messages (tokio's unbounded channels); the streams of events may, then an error arrives ([Lagged]). A request that nobody keeps is answered by discv5 with an empty answer when it is dropped. Messages for the log are left out.
* `Distance_Model.v` — Model of crates/ethportal-api/src/types/distance.rs
* `Download_Model.v` — Downloads of files: /repo/bin/trin-execution/src/e2hs/utils.rs:47-70 [download_raw_e2store_file] and /repo/bin/trin-execution/src/subcommands/e2ss/utils.rs:27-93 [download_with_progress]. What the server answers to each attempt, the pieces in which a body comes and the time since the last report at each of them are arguments. Not modelled: the pauses between attempts, the messages, and writes to the disk that fail after a part of a piece.
* `E2Store_Model.v` — e2store files: /repo/crates/e2store/src/e2store/{types,memory,stream}.rs.
* `E2hsBridge_Model.v` — The bridge from history files to the network: /repo/bin/portal-bridge/src/bridge/e2hs.rs, types/range.rs and bridge/offer_report.rs [GlobalOfferReport], with /repo/crates/e2store/src/utils.rs [get_e2hs_files] and e2hs.rs [iter_tuples]. The tasks are a transition system: an [op] is a step of one of them, and a list of [op]s is a schedule. Which peers the census selects, what they answer and when is part of the schedule; that an offer is answered at the latest when its time is up (440-465) is what makes [Answer] possible at any time. A permit goes to any task that wants one. Not modelled: the metrics, the reports for single keys, the census (Census_Model), and panics within the tasks that gossip.
* `E2hsWriter_Model.v` — Writing history files: /repo/bin/e2hs-writer/src/subcommands/full_block.rs and single_generator/{mod,e2hs_builder,provider,era_binary_search}.rs, with /repo/crates/ethereum-rpc-client/src/execution.rs [get_receipts_range]. The servers are an argument: what they answer, already decoded (EraFiles_Model reads the files). A server answers the same question always in the same way. Of a directory there is the temporary file of the index and the finished one.
* `EphBridge_Model.v` — The bridge at the head of the chain: /repo/bin/portal-bridge/src/bridge/ephemeral_history/{mod,ephemeral_bundle,gossiper}.rs, with /repo/crates/ethereum-rpc-client/src/consensus/mod.rs [first_slot_in_a_period]. The events of the consensus client and the answers of both clients are an argument: each [Head] comes with its own. A panic while an event is handled stops the bridge; a panic in a task that was spawned stops only the task. The tasks are given by what they offer and in which phases; for their schedules see E2hsBridge_Model. Not modelled: the metrics, the census (Census_Model) and the reconnects of the stream of events.
* `EraFiles_Model.v` — Files made of e2store records: /repo/crates/e2store/src/{era1,e2hs,era,e2ss,types}.rs. What is inside a compressed record (snappy around RLP or SSZ) is abstract: a pair of functions per kind.
* `EthApi_Model.v` — The eth_ methods that read headers, blocks and states: /repo/crates/rpc/src/eth_rpc.rs. The sizes of blocks and the state roots of headers are arguments (alloy); [lookup] is what the [GetContent] endpoint of the history network answers to a request of the call, which may be different for every request. [BlockTransactions] is a list of hashes, since full transactions are not supported. Errors carry no details.
* `EthCall_Model.v` — eth_call: /repo/crates/rpc/src/eth_rpc.rs 120-156 and /repo/crates/evm/src/async_db.rs. The EVM (revm) is an argument: for the rules, the block and the transaction that it is given it is a program that asks its database for accounts, codes, slots and hashes of blocks, one after another, and ends with a result. It is finite, because gas is. An error of the database ends the execution with an error ([EVMError::Database]); a panic within [spawn_blocking] becomes an error as well (async_db.rs:95-99).
* `EvmState_Model.v` — Reading the state of a block over the Portal network: /repo/crates/rpc/src/evm_state.rs. [keccak256], [decode_node] of [eth_trie], the RLP decoder of accounts and the answers of the state network are arguments; the answer may be different for every request. [Bytecode::new_raw] of [revm], which panics on some bytes, is an argument too. Errors carry no details.
* `ExecDb_Model.v` — The database of trin-execution: /repo/bin/trin-execution/src/storage/{evm_db,account_db,trie_db, execution_position}.rs, the writes of evm/block_executor.rs and [commit] of execution.rs. RocksDB does not fail. Accounts, codes and block hashes share one key space of 32-byte keys, as in the code. Of [eth_trie] only the contents of tries are modelled: a trie that was saved can be opened at its root until its nodes are deleted. The nodes of storage tries (64-byte keys) and of state tries (keyed by the hash of their own bytes) are therefore kept apart from the rest. What a transaction does is not modelled: it ends up in the bundle. Metrics and the caches for gossip are left out.
* `ExecRun_Model.v` — The supply of blocks of trin-execution and its loop over them: /repo/bin/trin-execution/src/e2hs/{manager,types,utils}.rs and execution.rs. What a download of a file returns is an argument, and may be different every time. So is whether the EVM accepts a block, the bundle of changes it has collected when they are committed, whether the limits for a commit are reached, and when a stop signal arrives. A download runs in the background; here it happens when its result is awaited. Block numbers do not reach [u64::MAX]. The writes of a block are those of ExecDb_Model; the EVM rejects a block before them.
* `ExecSnap_Model.v` — Snapshots of the state: /repo/bin/trin-execution/src/subcommands/e2ss/{export,import}.rs, on the items of an e2ss file (EraFiles_Model has the bytes) and the database of ExecDb_Model. The iteration over the leaves of a trie is an argument. The state trie that is saved after every 1000 accounts of an import is left out: its old versions are never read. The blocks that are needed come from ExecRun_Model. RocksDB does not fail.
* `F64_Model.v` — The part of IEEE-754 binary64 arithmetic ([f64]) the repository uses on non-negative values: every operation is the exact rational result rounded to 53 significant bits, ties to even. Simplification: no overflow, underflow, infinities or NaN; all values modelled lie between 2^-100 and 2^130, far inside the range of [f64].
* `FileIndex_Model.v` — The pages that list era, era1, e2hs and e2ss files: /repo/crates/e2store/src/utils.rs. Arguments: what the server sends and the HTML parser make of a page, [page]: the values of [href] of its links, [None] if the request fails; and [resolve], which makes a URL of the address of the page and a link. A map is the list of what was inserted. The order of a hash map's values is an argument, as is the shuffling.
* `FileNames_Model.v` — The names of history and state files: /repo/crates/e2store/src/e2hs.rs:125-137 and e2ss.rs:73-77, and what reads them: /repo/bin/e2hs-writer/src/subcommands/head_generator/mod.rs:110-116. The list of the names in a bucket is [HeadGen_Model.last_key]'s, a page with links [FileIndex_Model]'s. Decimal numbers are written by [Args_Spec.write].
* `Gossip_Model.v` — Choosing the peers to whom content is gossiped: /repo/crates/portalnet/src/gossip/, put_content.rs and [poke_content] of overlay/service/find_content.rs. A hash map from records to lists is a list of pairs with distinct records; the order of the pairs stands for the unspecified iteration order and no statement depends on it.
* `HeadFollow_Model.v` — From the light client to the head of the chain: /repo/crates/light-client/src/consensus/consensus_client.rs (what is published), watch.rs (the three channels), /repo/crates/subnetworks/beacon/src/sync.rs (the start of the light client) and network.rs (the task that reads the channels and tells the head of the chain). A channel keeps the last value only, and whether the reader has seen it (tokio's [watch]). The client and the reader run at the same time: what happens is any list of [op]s. The calls of [process] in one [advance] (LightClient_Model) are separate [Arrive]s, so that the reader may run between them. Of a light client header only its beacon header is public (chain_head/mod.rs:46-54); [rest] is what of it stands beside the slot. Not modelled: the ticks for metrics.
* `HeadGen_Model.v` — Writing history files at the head of the chain: /repo/bin/e2hs-writer/src/subcommands/head_generator/{mod,e2hs_builder,s3_bucket}.rs, with /repo/crates/ethereum-rpc-client/src/consensus/mod.rs [find_first_beacon_block], [get_state_for_start_of_next_period], [first_block_in_latest_finalized_period], [first_slot_in_a_period]. The servers are an argument; in each round they may be different ones. That a request is repeated with the fallback is part of the answer. The temporary directory is new and the file is removed after it was sent, so a temporary file never exists before.
* `Header_Model.v` — Checking that a block header is part of the chain: /repo/crates/validation/src/header_validator.rs, accumulator.rs, historical_summaries_provider.rs; building such proofs: /repo/crates/ethportal-api/src/types/execution/header_with_proof.rs and types/consensus.
* `Hex_Model.v` — Model of crates/ethportal-api/src/utils/bytes.rs and of the functions of crates/ethportal-api/src/types/node_id.rs that use it. A Rust [&str] is modelled by its UTF-8 bytes ([bytes]); characters are ASCII codes. The different error values of [ByteUtilsError] are collapsed into [Err].
* `Identity_Model.v` — Model of /repo/crates/portalnet/src/utils/db.rs, of /repo/crates/utils/src/dir.rs [setup_data_dir] and of /repo/crates/light-client/src/database.rs: where a node keeps its data, its private key and its checkpoint. Paths are lists of names. A process may stop at any moment while it writes a file: [std::fs::write] creates or empties the file and then writes it from front to back. Outside the model: the elliptic curve ([parse]: the 32 bytes of the key that [secp256k1_from_bytes] reads, if it does; [node_id]: the node id of a key), random numbers, errors of the file system.
* `Join_Model.v` — How a node joins the network and keeps its routing table filled: /repo/crates/portalnet/src/overlay/service/manager.rs, bootnodes.rs. The table and the queue of pings are those of KBucket_Model, random ids those of Hex_Model, lookups those of NodeLookup_Model. Random numbers are arguments: for each bucket the bytes drawn and the choice for the first one. A lookup is represented by its target and the nodes it starts with.
* `KBucket_Model.v` — The routing table of an overlay network, /repo/crates/portalnet/src/types/kbucket.rs, and what the service does with it, /repo/crates/portalnet/src/overlay/service/manager.rs and service/ping/. Node ids are numbers below 2^256, a distance is the exclusive or of two ids. The table of the [discv5] crate is not part of the repository. It is modelled as the list of its entries, in the order in which it iterates over them; whether it takes an entry (a bucket may be full or have too many incoming peers) is a parameter of each call, its [fate]. No table or bucket filter is configured (portalnet/src/overlay/config.rs:38-39).
* `KeySpace_Model.v` — One database for the state trie, the storage tries of all accounts, accounts, codes, block hashes and the position: /repo/bin/trin-execution/src/storage/account_db.rs and trie_db.rs, with the writes of evm_db.rs, block_executor.rs, import.rs and execution_position.rs. RocksDB is a map that does not fail; flushing changes nothing that can be read. Which nodes [eth_trie] writes is an argument: any writes in any order.
* `Keys_Model.v` — Paths and content keys: /repo/crates/ethportal-api/src/types/state_trie/nibbles.rs and /repo/crates/ethportal-api/src/types/content_key/*.rs.
* `LcRpc_Model.v` — Where the light client gets its data: /repo/crates/light-client/src/consensus/rpc/{mod,nimbus_rpc,portal_rpc}.rs, consensus/types.rs:72-81, consensus/consensus_client.rs:78-86, rpc.rs and utils.rs:5-7. The provider is an argument, [ask]: what comes back for a URL after all URLs asked for before; [None] is a request that fails, be it for a text that is no URL. So is the network, [find]. Reading JSON text, reading the values in JSON and decoding contents are arguments too. Left out: redirections, timeouts, the server of rpc.rs but for what it answers.
* `LcStart_Model.v` — Starting the light client: /repo/crates/light-client/src/client.rs, database.rs, node.rs:24-68, config/client_config.rs and consensus/consensus_client.rs:46-86, 480-508. What a sync with the network does from a checkpoint is in LightClient_Model; here it is an argument that says how it ends. What the services for checkpoints answer (Checkpoints_Model) and whether a port can be bound are arguments. Times are whole seconds.
* `LcSync_Model.v` — What the light client asks for while it syncs and advances, in which order: /repo/crates/light-client/src/consensus/consensus_client.rs:118-219 and node.rs:54-72. The source (a provider or the portal network, LcRpc_Model) is an argument: what it answers to a question after all questions before, with the slot of the clock when the answer is checked; [None] is an error. What is done with the answers is in LightClient_Model.
* `LegacyHistory_Model.v` — Content of the legacy history network: /repo/crates/ethportal-api/src/types/content_value/legacy_history.rs, types/execution/{header_with_proof,ssz_header,block_body,receipts,ephermeral_header}.rs, /repo/crates/subnetworks/legacy-history/src/validation.rs and jsonrpc.rs, and /repo/crates/validation/src/oracle.rs. The types of transactions, receipts and withdrawals with their RLP codecs, the RLP codec of headers, Keccak and the root of an ordered trie are outside /repo (alloy) and are arguments.
* `LightClient_Model.v` — The light client of the beacon chain: /repo/crates/light-client/src/consensus/consensus_client.rs, types.rs and utils.rs, config/client_config.rs. Arguments: [sha] is SHA-256; [parse_key] is [PublicKey::from_bytes_unchecked]; [aggregate_verify] is [AggregateSignature::from_bytes] followed by [fast_aggregate_verify] (utils.rs:16-22). Not modelled: the requests to the network ([rpc]), whose results are arguments; logging; the channels on which accepted updates are published.
* `Merkle_Model.v` — The sparse Merkle tree and Merkle proofs: /repo/crates/validation/src/merkle/proof.rs. [sha] stands for SHA-256 (the crate [ethereum_hashing]: [hash x] is [sha x] and [hash32_concat a b] is [sha (a ++ b)]); it is an arbitrary function here. A [B256] is a byte string. Depths are [nat]; [2usize.pow] does not overflow for the depths in use.
* `Metrics_Model.v` — What a node reports of itself: /repo/crates/metrics/src/{overlay,labels,chain_head,storage}.rs and the places that report: /repo/crates/portalnet/src/utp/controller.rs:150-290, overlay/service/manager.rs:273-294, 455-492, 558-563, /repo/crates/validation/src/chain_head/store.rs:34-48, /repo/crates/subnetworks/beacon/src/{network,storage}.rs. What the uTP socket says at each await is an argument, and so is the order in which the tasks go on. Gauges are integers (the code's [i64]), counters are naturals (the code's [u64]). Not modelled: the registry and the exporter of Prometheus, the buckets of histograms, the timers of storage and transfers, and the format of decimals.
* `NodeLookup_Model.v` — Lookups of nodes as the service runs them: /repo/crates/portalnet/src/overlay/service/find_nodes.rs, manager.rs. One lookup in the pool (which of them is polled is said in QueryPool_Model). The search itself is that of Query_Model. What the service knows otherwise at a poll is an argument: the records of the discovery and of the routing table, and those of the other lookups in the two pools, before and after this one in the order of the maps.
* `OfferAccept_Model.v` — Answering offers, answering the answer, and the transfer that follows: /repo/crates/portalnet/src/overlay/service/offer.rs (offer side and accept side) and the two ends of a find-content transfer in find_content.rs.
* `OverlayApi_Model.v` — What users of an overlay network call, /repo/crates/portalnet/src/overlay/protocol.rs, and how the service keeps track of the requests it sends out, overlay/service/manager.rs and overlay/request.rs. A record, the routing table and the fate of an entry are those of KBucket_Model, messages those of Wire_Model. The answer of a peer to the bytes sent to it is an argument, as are the results of a recursive search, the records the discovery layer knows, the verdict of the validator and the bytes received over a stream. The order in which answers arrive is any order. A request with its content ([PopulatedOffer], [PopulatedOfferWithResult]) is kept as the items and goes out as an [Offer] of their keys. Metrics, logs and timeouts are left out.
* `Payload_Model.v` — Model of crates/portalnet/src/utils/portal_wire.rs and of the two functions of the [leb128] crate it calls ([write::unsigned], [read::unsigned], version 0.2).
* `Permits_Model.v` — Slots for uTP transfers: /repo/crates/portalnet/src/utp/controller.rs, utp/timed_semaphore.rs and the places in overlay/service/ that take and give back permits. A permit belongs to the value that owns it and is given back when that value is dropped. The owners are the handler while it runs, the spawned task it is moved into, or the entry of an outgoing request; they are listed as [activity]s.
* `Ping_Model.v` — Pings: the payloads in /repo/crates/ethportal-api/src/types/ping_extensions/, what is sent and answered in /repo/crates/portalnet/src/overlay/service/ping/mod.rs, and the part of overlay/service/manager.rs around it. A Rust string is its UTF-8 bytes.
* `ProtoInfo_Model.v` — What a node says about its protocol: /repo/crates/ethportal-api/src/types/protocol_info.rs (the value of the key "p" of a record) and the order and numbers of versions in types/protocol_versions.rs. RLP is as the [alloy_rlp] crate reads and writes it (Trie_Model, ExecDb_Model).
* `Providers_Model.v` — Asking the providers of beacon and execution data: /repo/crates/ethereum-rpc-client/src/{http_client,execution}.rs and consensus/{mod,event,rpc_types}.rs. The providers are one argument, [ask]: what comes back for a request after all requests made before, in any way. Reading JSON text and decoding the values for which one asks are arguments, as is the environment. A text is its bytes. Time is not modelled: a timeout is a failed request, waiting is nothing. Redirections and the connections of the HTTP client are not modelled; its retries are.
* `QueryPool_Model.v` — The pool of running lookups, /repo/crates/portalnet/src/find/query_pool.rs, and the choice of log distances, /repo/crates/portalnet/src/find/query_info.rs:98-126.
* `Query_Model.v` — Recursive lookups: /repo/crates/portalnet/src/find/iterators/{query,findnodes,findcontent}.rs. Node ids are numbers below 2^256 (not enforced here), a distance is the exclusive or of two ids, instants are numbers. [closest_peers], a [BTreeMap] from distances to peers, is a list of pairs in increasing order of distance. The counter [peers_returned] of a peer is left out: nothing reads it. Subtractions that would go below zero, and the assertions that guard them, are [Panic].
* `Receive_Model.v` — What happens to content that arrives at the node: /repo/crates/portalnet/src/overlay/service/offer.rs:185-255, 439-626 and /repo/crates/portalnet/src/overlay/service/find_content.rs:503-618. Simplification: each arrival is handled in one step. Handlers run concurrently in the code, but what is proved per step only relies on the store holding canonical content, which every single store access preserves.
* `Rewards_Model.v` — The fork schedule and what a block credits to accounts after its transactions: /repo/crates/evm/src/spec_id.rs and /repo/bin/trin-execution/src/evm/{post_block_beneficiaries,dao_fork}.rs, with [increment_balances] of block_executor.rs:99-104. Balances are a function from addresses to numbers. [State::drain_balances] and [State::increment_balances] are of the [revm] crate, outside /repo; they are modelled after their documentation (drain: set to zero and return what was there, which must fit a [u128]; increment: skip zero, add saturating at 2^256 - 1). Arithmetic that overflows panics (a release build would wrap).
* `Serve_Model.v` — Starting a node and what its JSON-RPC servers offer: /repo/bin/trin/src/run.rs, /repo/crates/rpc/src/{lib,builder,rpc_server,cors}.rs and the names of methods in /repo/crates/ethportal-api/src/{beacon,discv5,eth,history,legacy_history,state,web3}.rs. Not modelled: discovery, uTP, the tasks of the networks and what their set-up does (whether it works is an argument), the servers of jsonrpsee and reth_ipc once they run, handlers of middleware, stopping. What the system does when asked for an address, for the addresses of a host or for a socket file is an argument. [merge] of jsonrpsee refuses a name that is registered already. The builder keeps the methods it made for a module; as they depend on nothing but the channels, the model makes them again.
* `SnapStats_Model.v` — The check of a snapshot file: /repo/crates/e2store/src/bin/e2ss-stats.rs, on the items of an e2ss file (EraFiles_Model has the bytes, ExecSnap_Model the export). Counters of 64 bits do not overflow.
* `Sort_Model.v` — Sorting, as done by SQL's ORDER BY and by [slice::sort_by]: insertion sort by a boolean comparison. It is stable, like [slice::sort_by]; for SQL the order among equals is arbitrary, which models of queries express by an arbitrary tie-breaking key.
* `Ssz_Model.v` — SSZ containers, lists and unions as implemented by the [ethereum_ssz] crate that the repository uses for all its wire and database formats (crates/ethportal-api/Cargo.toml; [ssz::Encode], [ssz::Decode] and the derive macros). The crate itself is outside /repo; this is a model of its encoder and of [SszDecoderBuilder], [sanitize_offset], [decode_list_of_variable_length_items] and [split_union_bytes], with panicking slice accesses explicit. Error kinds are collapsed into [Err].
* `StateContent_Model.v` — Content of the state network: /repo/crates/ethportal-api/src/types/content_value/state.rs, /repo/crates/subnetworks/state/src/validation/validator.rs and /repo/crates/subnetworks/state/src/storage.rs. [keccak256], [decode_node] ([eth_trie]), the RLP decoder of [AccountState] and the answers of the header oracle are arguments.
* `StateRun_Model.v` — The runs of the state bridge: /repo/bin/portal-bridge/src/bridge/state.rs:131-258 and the beginning of [gossip_trie_diff] and [gossip_whole_state_snapshot]; which run a mode stands for is in Args_Model, the contents that are offered for a trie are in the models of the bridges. On top of trin-execution (ExecRun_Model, ExecSnap_Model). The directory of a run over blocks is new; that of a snapshot is the one of trin-execution. What the downloads return and whether an offer fails are arguments. The cache of contracts and storage changes is the list of what was executed and committed since it was cleared. Reports and the clock are left out. The number of a snapshot is below [u64::MAX].
* `Store_Model.v` — The id-indexed content store: /repo/crates/storage/src/versioned/id_indexed_v1/ {store,pruning_strategy,sql,config}.rs and versioned/usage_stats.rs. The SQL table is a list of rows with distinct ids. Not modelled: failures of the database itself (every SQL statement succeeds and is atomic), metrics, logging. Content keys are their byte strings: [TContentKey::try_from_bytes] of a key written by [to_bytes] succeeds (property C26).
* `Trace_Model.v` — Model of /repo/crates/ethportal-api/src/types/query_trace.rs and of its use in /repo/crates/portalnet/src/overlay/service/find_content.rs and manager.rs: the trace of a lookup of content. A node record has a node id, a sequence number and the rest. A HashMap is a function. [now] is the clock of the system in milliseconds since 1970; it may be set back. JSON is left out.
* `Trie_Model.v` — Merkle-Patricia trie nodes and proofs: /repo/crates/ethportal-api/src/types/state_trie/{mod,trie_traversal,utils}.rs and /repo/crates/subnetworks/state/src/validation/{trie,error}.rs. [keccak256] is an argument, and so is [decode_node] of the [eth_trie] crate, which is outside /repo: it may return any node, fail or panic. [rlp_decode_node] at the end is a decoder written after the yellow paper, used to show that the decoders the theorems ask for exist.
* `TxEnv_Model.v` — What the EVM is told about a transaction and a block: /repo/crates/evm/src/tx_env_modifier.rs, /repo/crates/evm/src/lib.rs and /repo/bin/trin-execution/src/e2hs/types.rs. revm's [TxEnv] and [BlockEnv] are records of plain values; addresses, hashes and keys of access lists are byte strings. [default_tx_env] is revm's [TxEnv::default()], whose gas limit is an argument. Signatures and blob sidecars, which the EVM does not see, are left out, and so is the content of authorizations, which [Tx7702] and requests only carry. The price of blob gas is an argument (revm).
* `Upload_Model.v` — Uploading a history file in parts: /repo/bin/e2hs-writer/src/subcommands/head_generator/s3_bucket.rs:33-130. The bucket is modelled after the rules of S3: a part has a number from 1 to 10000, and an upload is completed if the list of its parts ascends, every part of the list is there with the tag of the list, and all but the last have 5 MiB. Which requests fail, before or after they were carried out, and which answers lack the id or the tag is an argument ([fate]). Other clients of the same bucket, and the retries of the AWS client, are not modelled.
* `UserApi_Model.v` — What a user gets over JSON-RPC: /repo/crates/rpc/src/{fetch,errors,serde,ping_extension,legacy_history_rpc,state_rpc,beacon_rpc}.rs and /repo/crates/subnetworks/{legacy-history,state,beacon}/src/jsonrpc.rs. A text is its bytes. The server of jsonrpsee, the channels between the tasks and what serde_json does with text are not modelled: reading the text of an error is an argument, as are the texts of Rust's [Debug] and of errors of serde. What the overlay and the store answer is an argument too (they are OverlayApi_Model and Store_Model).
* `Versioned_Model.v` — Choosing the store of a content type and the store of ephemeral content: /repo/crates/storage/src/versioned/{mod,utils,sql}.rs and /repo/crates/storage/src/versioned/ephemeral_v1/{store,sql}.rs. The database is the table of store versions and one table per store; every SQL statement succeeds and is atomic, except for a value that SQLite cannot hold. The process may die between any two statements. Not modelled: metrics, logging, the indexes of the tables.
* `Walker_Model.v` — Walking a state trie and turning it into content: /repo/bin/trin-execution/src/trie_walker/{filter,mod}.rs, utils.rs, content.rs and types/trie_proof.rs, and [gossip_trie_diff] and [gossip_whole_state_snapshot] of /repo/bin/portal-bridge/src/bridge/state.rs with [BridgeId] of cli.rs. [keccak256], [decode_node] of [eth_trie], the RLP decoder of accounts and the databases are arguments. Of the offers only the content key and value are modelled, not their sending.
* `Wire_Model.v` — Portal wire messages: /repo/crates/ethportal-api/src/types/portal_wire.rs, the size limits in crates/portalnet/src/overlay/service/{utils,find_nodes,find_content}.rs.

## Properties

For each property: what is modelled and how it is proved, the status, and the theorems.

### C01 XOR distance is a metric

N-valued xor on 256-bit numbers plus byte-wise xor on 32-byte lists; algebra via N.lxor bit lemmas.

Status: **proved**. 
Theorems (`Distance_Props.v`): `C01_xor_distance_metric`, `C01_xor_unidirectional`.

### C02 Logarithmic distance brackets the distance, and distance order is big-endian byte order

N.size/N.log2 characterisation; big-endian codec lemmas, lexicographic order by induction.

Status: **proved**. 
Theorems (`Distance_Props.v`): `C02_log2_brackets`, `C02_big_endian_order`.

### C03 Content payload round trip

LEB128 encoder/decoder on byte lists, induction on items.

Status: **proved**. 
Theorems (`Payload_Props.v`): `C03_payload_round_trip`, `C03_payload_encode_fails`, `C03_payload_single_round_trip`.

### C04 Content payload decoding is total and accounts for every byte

Decoder inversion lemma: accepted bytes split into prefix/item pairs.

Status: **proved**. 
Theorems (`Payload_Props.v`): `C04_payload_decode_exact`, `C04_payload_single_exact`, `C04_payload_decode_total`.

### C05 Hex string round trip

Character-level model, finite sweep over nibbles lifted to all strings.

Status: **proved**. 
Theorems (`Hex_Props.v`): `C05_hex_round_trip`, `C05_hex_decode_exact`, `C05_hex_decode_total`, `C05_hex_compact`.

### C06 Accept codes survive the wire

Codes, bitlist codec, round trips by induction on the bits.

Status: **proved**. 
Theorems (`AcceptCodes_Props.v`): `C06_accept_codes_wire`, `C06_accept_codes_limit`, `C06_accept_codes_decode_total`, `C06_accept_codes_new`, `C06_all_declined`, `C06_bitlist_canonical`.

### C07 Wire messages round trip

SSZ container/list/union codec over byte lists, round trip.

Status: **proved**. 
Theorems (`Wire_Props.v`): `C07_message_round_trip`.

### C08 Wire message decoding is total and unambiguous

Decode inversion (decode b = Some m -> encode m = b); totality is by construction, panics are error values.

Status: **partial**. Never panics; re-encodes to its bytes except for a ping or pong payload above 1100 bytes, which is cut silently (C08_decode_unambiguous_refuted). The re-encoding claim is relative to the ENR codec being canonical.
Theorems (`Wire_Props.v`): `C08_decode_total`, `C08_decode_unambiguous_partial`, `C08_same_message_same_bytes_partial`, `C08_decode_unambiguous_refuted`, `C08_request_xor_response`.

### C09 At most one accepted transfer per content key

State machine with explicit expiry events; history invariant.

Status: **proved**. 
Theorems (`AcceptQueue_Props.v`): `C09_no_second_transfer`, `C09_refused_only_in_progress`, `C09_accepted_after_end`.

### C10 Fallback peers are real other offerers

Same machine, origin/fallback invariant, arbitrary choice index.

Status: **partial**. Proved that the fallback peer offered the key and its record differs from the failed one. Refuted: it can be the same node with an updated record (C10_fallback_is_other_node_refuted).
Theorems (`AcceptQueue_Props.v`): `C10_fallback_offered`, `C10_no_fallback_only_if_none`, `C10_no_peer_twice`, `C10_fallback_is_other_node_refuted`.

### C11 Content store refines a bounded map

Row-list model of the SQL table; refinement to a map.

Status: **proved**. 
Theorems (`Store_Props.v`): `C11_insert`, `C11_delete`, `C11_lookup_history`, `C11_lookup_key`, `C11_should_we_store`.

### C12 Content store usage accounting

Invariant stats = recomputed totals over op sequences.

Status: **proved**. C12_repeated_insert_refuted shows the drift that repeated inserts cause; it only overestimates (C12_usage_not_below).
Theorems (`Store_Props.v`): `C12_usage_exact`, `C12_usage_not_below`, `C12_repeated_insert_refuted`.

### C13 Content store stays within its capacity

Pruning loop with fuel, progress lemma; the f64 estimate is modelled exactly with SpecFloat or bounded by an oracle lying in a stated interval.

Status: **proved**. 
Theorems (`Store_Props.v`): `C13_within_capacity`.

### C14 Pruning removes the farthest content and reports it

Sorting by the distance prefix, arbitrary tie-breaking.

Status: **partial**. Removal of the farthest is proved for every history, the exact report when no content present was inserted again. Refuted otherwise: the last batch is not reported, and content that fits is removed (C14_unreported_refuted).
Theorems (`Store_Props.v`): `C14_removes_farthest`, `C14_reports_dropped`, `C14_unreported_refuted`.

### C15 Radius matches what is stored

Invariant after set_radius_to_farthest; the full-distance form is refuted.

Status: **proved**. At the precision of the four-byte prefix; C15_exact_radius_refuted shows an entry farther than the radius.
Theorems (`Store_Props.v`): `C15_radius_covers_store`, `C15_radius_after_prune`, `C15_exact_radius_refuted`.

### C16 Reopening the store

Init as function of rows and config.

Status: **proved**. C16_refused_but_pruned_refuted: a database of another node is refused only after it was pruned. Migration from the legacy store is not modelled.
Theorems (`Store_Props.v`): `C16_reopen`, `C16_crash_reopen`, `C16_refused_but_pruned_refuted`.

### C17 Pagination covers everything once

Sorted list, firstn/skipn algebra.

Status: **proved**. 
Theorems (`Store_Props.v`): `C17_pages`.

### C18 Storage capacity is split without overspending

Integer arithmetic of the capacity split, for arbitrary lists of subnetworks.

Status: **proved**. 
Theorems (`Capacity_Props.v`): `C18_combined_split`, `C18_specific`, `C18_accepted_command_line`.

### C19 Merkle proofs: completeness

Tree model over an arbitrary hash function, induction on depth.

Status: **proved**. 
Theorems (`Merkle_Props.v`): `C19_complete`, `C19_complete_debug`, `C19_debug_past_the_end_refuted`.

### C20 Merkle proofs: soundness

Collision-extracting soundness.

Status: **proved**. 
Theorems (`Merkle_Props.v`): `C20_sound`, `C20_one_leaf_per_position`, `C20_length`.

### C21 Incremental Merkle tree equals batch tree

Push_leaf vs create by induction on depth.

Status: **proved**. 
Theorems (`Merkle_Props.v`): `C21_incremental`, `C21_same_tree`, `C21_snapshot`, `C21_finalize_none_refuted`, `C21_finalize_beyond_refuted`.

### C22 Only canonical headers are accepted

The three verifiers over the frozen accumulators and the summaries cache; soundness of Merkle branches (C20) applied to each level, for every history of validations.

Status: **partial**. Proved for beacon blocks of the shape the proof kind is for; C22_no_panic_refuted: a proof naming a slot past the frozen historical roots crashes the validation task.
Theorems (`Header_Props.v`): `C22_only_canonical`, `C22_no_panic`, `C22_no_panic_refuted`.

### C23 Honest pre-merge header proofs are accepted

Built on C19.

Status: **proved**. 
Theorems (`Header_Props.v`): `C23_honest_pre_merge`, `C23_other_header`.

### C24 The chain head view never goes back

Fold over updates, monotone order.

Status: **proved**. 
Theorems (`ChainHead_Props.v`): `C24_newest`, `C24_monotone`, `C24_final_not_ahead`, `C24_summary`.

### C25 Nibble path encoding

Codec over byte lists.

Status: **proved**. 
Theorems (`Keys_Props.v`): `C25_round_trip`, `C25_accepted`, `C25_layout`.

### C26 Content keys are unambiguous

Codec over byte lists, inversion.

Status: **proved**. 
Theorems (`Keys_Props.v`): `C26_legacy_history`, `C26_beacon`, `C26_state`, `C26_history`, `C26_layout`, `C26_content_id`, `C26_radius`.

### C27 Range content ids

Bit reversal on N with testbit lemmas.

Status: **proved**. 
Theorems (`Keys_Props.v`): `C27_id`, `C27_distinct`, `C27_history`, `C27_history_type`, `C27_order`, `C27_next`.

### C28 Trie proofs prove what they say

Node datatype with hash references, traversal function, node decoder as an argument; induction on the proof, naming the inputs of a collision.

Status: **partial**. Soundness, completeness and uniqueness proved with the node decoder as an argument (a decoder that meets the hypothesis is given); an account whose leaf has no remaining path cannot be proved (C28_empty_leaf_refuted), which does not arise for 32-byte address hashes in practice.
Theorems (`Trie_Props.v`): `C28_node_sound`, `C28_account_sound`, `C28_node_complete`, `C28_account_complete`, `C28_account_unique`, `C28_node_unique`, `C28_no_panic`, `C28_empty_leaf_refuted`, `C28_decoder`.

### C29 State content is stored in the form peers can check

Put/get/validate composition.

Status: **proved**. 
Theorems (`StateContent_Props.v`): `C29_put`, `C29_stored_valid`, `C29_canonical_stored`, `C29_valid_form`, `C29_read_back`.

### C30 State offers are tied to a block's state root

Refuted for the code as it is (header check disabled); proved for the variant with the check enabled.

Status: **partial**. Proved for the validator with the header check on (C30_checked). The code has it switched off, so the property is false of it (C30_any_node_refuted, C30_any_code_refuted); what remains is C30_actual_partial.
Theorems (`StateContent_Props.v`): `C30_checked`, `C30_actual_partial`, `C30_any_node_refuted`, `C30_any_code_refuted`.

### C31 Lookups respect their parallelism and contact each peer once

State machine with peers ordered by distance; invariants.

Status: **proved**. 
Theorems (`Query_Props.v`): `C31_node_lookup`, `C31_node_lookup_contact`, `C31_content_lookup`, `C31_content_lookup_contact`.

### C32 Lookup results are the closest peers that answered

Into_result characterisation.

Status: **proved**. 
Theorems (`Query_Props.v`): `C32_result`, `C32_nearest_first`.

### C33 Lookups terminate

Measure argument on the finite peer universe.

Status: **partial**. Proved: at most as many requests as peers ever named, at most as many idle polls as requests, and with nothing in flight a poll finishes or contacts a new peer. Refuted that the per-peer timeout suffices for that (C33_peer_timeout_refuted): when an uncontacted nearer peer is known and the lookup is at capacity, overdue peers further away are not given up, so only replies, failures or the overall timeout end it.
Theorems (`Query_Props.v`): `C33_terminates`, `C33_content_terminates`, `C33_peer_timeout_refuted`.

### C34 Content lookups only return validated content

FindContent machine with validation channel.

Status: **proved**. 
Theorems (`Query_Props.v`): `C34_only_validated`, `C34_one_at_a_time`, `C34_announces_supplied`, `C34_valid_content_returned`, `C34_gives_up_late`.

### C35 A failed validation does not stall a content lookup

Refuted with a trace of the service level glue.

Status: **partial**. Proved when the sender is known and shares a protocol version; refuted otherwise (C35_no_verdict_refuted): no outcome is ever sent and the lookup makes no step until its overall timeout.
Theorems (`Query_Props.v`): `C35_one_verdict_partial`, `C35_no_verdict_refuted`.

### C36 Query pool accounting

Pool machine with an arbitrary iteration order.

Status: **proved**. 
Theorems (`QueryPool_Props.v`): `C36_accounting`, `C36_poll`, `C36_start`.

### C37 Requested log distances are the right neighbours

List construction, finite domain lifted.

Status: **proved**. C37_too_many: more than 127 distances is a panic, as documented in the code.
Theorems (`QueryPool_Props.v`): `C37_log_distances`, `C37_too_many`.

### C38 Closest-peer queries

Filter/sort/take.

Status: **proved**. 
Theorems (`KBucket_Props.v`): `C38_closest`.

### C39 Nodes-by-distance queries

Bucket table model.

Status: **proved**. Complete when no requested bucket has more entries than the limit, which is the case in the service (32 against 16); C39_small_limit_refuted otherwise.
Theorems (`KBucket_Props.v`): `C39_nodes_by_distance`, `C39_small_limit_refuted`.

### C40 Replies fit in one packet

Pop loop.

Status: **proved**. 
Theorems (`Wire_Props.v`): `C40_nodes_reply_fits`, `C40_content_reply_fits`, `C40_unaffected_content_no_nodes`, `C40_inline_content_fits`.

### C41 Gossip recipients

Recipient selection with arbitrary random choice.

Status: **proved**. Repeated content is offered twice, mixed batches lose their order and the reported number of peers includes those skipped (C41_*_refuted).
Theorems (`Gossip_Props.v`): `C41_recipients`, `C41_offers_sent`, `C41_poke`, `C41_repeated_refuted`, `C41_mixed_order_refuted`, `C41_peer_count_refuted`.

### C42 Offer/accept transfers deliver each value under its own key

Composition of handle_offer, process_accept, payload codec, decode_payload.

Status: **proved**. Proved when both sides use the same protocol version; C42_versions_agree_refuted shows what happens otherwise (value arrives under another key or is dropped).
Theorems (`OfferAccept_Props.v`): `C42_populated_offer_delivers`, `C42_stored_offer_delivers`, `C42_versions_agree_refuted`.

### C43 Offer replies are faithful to the store's decision

Handle_offer decision table.

Status: **proved**. C43_zero_id_means_nothing_accepted_refuted: a random connection id 0 makes the sender ignore an acceptance.
Theorems (`OfferAccept_Props.v`): `C43_offer_reply_faithful`, `C43_rate_limited`, `C43_no_panic`, `C43_zero_id_means_nothing_accepted_refuted`.

### C44 Invalid content is never stored or gossiped

Store/propagate decision with validator oracle.

Status: **proved**. 
Theorems (`Receive_Props.v`): `C44_only_valid_content`, `C44_in_order`, `C44_offered_content_used`, `C44_fallback_content_used`, `C44_lookup_answer`.

### C45 Transfer slots are never oversubscribed or leaked

Semaphore machine.

Status: **partial**. Proved for offers received, content served and gossip; downloads of lookups and offers made by users take no slot (C45_all_transfers_refuted).
Theorems (`Permits_Props.v`): `C45_bounded`, `C45_refused_iff_full`, `C45_released`, `C45_independent`, `C45_all_transfers_refuted`.

### C46 e2store entries and files round trip

Entry codec.

Status: **proved**. Converting a list of records to bytes with TryFrom works below 4 GiB in all and panics above (C46_serialize, C46_large_refuted); write has no such limit.
Theorems (`E2Store_Props.v`): `C46_built_entries`, `C46_round_trip`, `C46_canonical`, `C46_distinct`, `C46_serialize`, `C46_large_refuted`.

### C47 Reading e2store bytes never panics

The panic is an explicit value in the model; the exact set of inputs that panic is characterised.

Status: **partial**. Exactly when reading panics (C47_exact_partial): after whole records one to five bytes are left, or a length field is within 8 of 4 GiB. So the property is false (C47_trailing_refuted, C47_cut_refuted).
Theorems (`E2Store_Props.v`): `C47_exact_partial`, `C47_trailing_refuted`, `C47_cut_refuted`.

### C48 Light client safety

Verify/apply with BLS and Merkle oracles.

Status: **proved**. 
Theorems (`LightClient_Props.v`): `C48_monotone`, `C48_justified`, `C48_saved_checkpoint`, `C48_safety`.

### C49 Light client committee tracking

Provenance invariant over sequences.

Status: **proved**. 
Theorems (`LightClient_Props.v`): `C49_provenance`, `C49_canonical`.

### C50 Beacon content store reads back what was stored

Tables + caches, refinement.

Status: **proved**. Bootstraps are served under the root of their header, whatever key they were stored for (C65_bootstrap_key_refuted).
Theorems (`BeaconStore_Props.v`): `C50_served_was_written`, `C50_bootstrap_kept`, `C50_updates_kept`, `C50_latest_served`.

### C51 Beacon store never regresses

Store tables and caches; the chain head part by the invariant of C24, the served content for atomic handling; refuted for interleaved handling.

Status: **partial**. The chain head never goes back while the node runs, nor does what is served when content is handled one item at a time. Refuted for concurrent handling: an older validated finality update can replace a newer one (C51_served_refuted).
Theorems (`BeaconStore_Props.v`): `C51_chain_head`, `C51_served_one_at_a_time`, `C51_served_refuted`.

### C52 Legacy history validation binds content to its key

Codecs of headers, bodies and receipts over arbitrary RLP codecs, the validator and a node with its store; invariant over all histories of received content, built on C22.

Status: **partial**. Proved: what is accepted and stored from the network is bound to its key and to headers of the chain. False as stated in four ways: a body whose withdrawals were removed is accepted (C52_stripped_refuted), bytes after RLP items are accepted (C52_junk_refuted), a crafted proof panics validation (C52_panic_refuted), and headers stored by JSON-RPC are trusted unchecked (C52_rpc_store_refuted).
Theorems (`LegacyHistory_Props.v`): `C52_header_by_hash`, `C52_header_by_number`, `C52_header_unique`, `C52_body`, `C52_body_same`, `C52_stripped_refuted`, `C52_receipts`, `C52_ephemeral`, `C52_all_or_nothing`, `C52_honest_header`, `C52_honest_body`, `C52_honest_receipts`, `C52_junk_refuted`, `C52_no_panic`, `C52_panic_refuted`, `C52_stored`, `C52_rpc_store_refuted`.

### C53 Protocol version negotiation

List search; refuted where the local list is unsorted or the peer has no list.

Status: **partial**. Proved for strictly increasing version lists. Refuted: a peer without a version entry is taken to speak version 0 even by a node that does not (C53_chosen_version_is_supported_refuted); the constructor drops its sortedness check (C53_spec_lists_are_sorted_refuted).
Theorems (`AcceptCodes_Props.v`): `C53_negotiation_greatest_common`, `C53_negotiation_symmetric`, `C53_chosen_version_is_supported_refuted`, `C53_spec_lists_are_sorted_refuted`.

### C54 Routing table updates keep the newest record

Update rules over sequences.

Status: **proved**. For records that are discovered; a record entered by hand replaces a newer one (C54_by_hand_refuted).
Theorems (`KBucket_Props.v`): `C54_one_entry`, `C54_newest`, `C54_discovered`, `C54_batch`, `C54_by_hand_refuted`.

### C55 Memory used for decoding is bounded by the payload

The allocation made for a payload prefix as a function of the bytes.

Status: **partial**. The bound is refuted: one prefix of five bytes reserves up to 4 GiB before the length is checked (C55_allocation_bounded_refuted); what holds is the bound for accepted payloads (C55_allocation_bounded_partial).
Theorems (`Payload_Props.v`): `C55_allocation_bounded_refuted`, `C55_allocation_bounded_partial`.

### C56 Random node id generated for a bucket lands in that bucket

Bit-level construction of a random id in a bucket, for arbitrary random bytes.

Status: **proved**. 
Theorems (`Hex_Props.v`): `C56_random_id_in_bucket`.

### C57 Evenly spread random ids

Construction of spread node ids; bit arithmetic.

Status: **proved**. 
Theorems (`Hex_Props.v`): `C57_spread_ids`, `C57_spread_ids_panic`.

### C58 A content key whose transfer got lost is accepted again

Same machine as C09 with clocks as arguments.

Status: **partial**. Refuted for keys that keep being offered and when several keys are overdue; proved when no offer of the key came for two minutes and it is the oldest overdue one.
Theorems (`AcceptQueue_Props.v`): `C58_stuck_key_released_partial`, `C58_stuck_key_released_refuted`, `C58_overdue_key_refused`.

### C59 A value found in the store reaches the asking peer

The lookup service glue: what is sent to the caller for each outcome.

Status: **proved**. 
Theorems (`OfferAccept_Props.v`): `C59_found_content_delivered`.

### C60 Every accepted key is released when its transfer ends

Receiving pipeline and accept queue composed.

Status: **partial**. Every accepted key is removed from the queue or passed to the fallback procedure; the fallback procedure does not release keys that are not subject to the radius (C60_accepted_keys_released_refuted).
Theorems (`Receive_Props.v`): `C60_accepted_keys_accounted_partial`, `C60_accepted_keys_released_refuted`.

### C61 The maximal radius option means its percentage

Binary64 arithmetic modelled by exact rounding of rationals.

Status: **proved**. 
Theorems (`Capacity_Props.v`): `C61_radius_percentage`.

### C62 Every connected peer keeps being checked

Routing table with the ping queue, over all sequences of events.

Status: **partial**. Refuted: after a failed request, a request from the peer makes it connected again without putting it back into the queue (C62_pinged_refuted). Proved for histories without requests from peers, entries made by hand and full buckets.
Theorems (`KBucket_Props.v`): `C62_pinged_partial`, `C62_only_known`, `C62_pinged_refuted`.

### C63 The radius attributed to a peer is the one it last reported

Same machine as C54.

Status: **proved**. Records entered by hand and boot nodes reset the radius (C54_by_hand_refuted).
Theorems (`KBucket_Props.v`): `C63_radius`.

### C64 Honest proofs for headers after the merge are accepted

Built on C19: the proofs the provider builds are accepted by the validator.

Status: **proved**. 
Theorems (`Header_Props.v`): `C64_honest_merge_to_capella`, `C64_honest_after_capella`.

### C65 Beacon content is bound to its key

The validator of the beacon network with the light client as an argument.

Status: **partial**. What validation does check is C65_bound. Refuted: a bootstrap is accepted for every block root, updates for any periods (C65_bootstrap_key_refuted, C65_updates_key_refuted).
Theorems (`BeaconStore_Props.v`): `C65_bound`, `C65_bootstrap_key_refuted`, `C65_updates_key_refuted`.

### C66 Decoding beacon content from peers never panics

Decoders with explicit panics.

Status: **partial**. Proved for values of at least four bytes; shorter ones crash the validation task (C66_short_value_refuted, C66_short_update_refuted).
Theorems (`BeaconStore_Props.v`): `C66_short_value_refuted`, `C66_short_update_refuted`, `C66_no_panic`, `C66_fork_round_trip`.

### C67 The light client starts from a trusted root

Store, validator and start of the light client composed over restarts.

Status: **partial**. Proved when every bootstrap was checked by a running light client; refuted otherwise (C67_planted_root_refuted).
Theorems (`BeaconStore_Props.v`): `C67_trusted_root`, `C67_planted_root_refuted`.

### C68 Bounded work for an offered beacon key

Number of database queries as part of the model's result.

Status: **partial**. One query at most except for update ranges, where the key itself sets the number (C68_unbounded_refuted).
Theorems (`BeaconStore_Props.v`): `C68_queries`, `C68_unbounded_refuted`.

### C69 The light client catches up

Sequence of syncs and advances against an honest peer.

Status: **partial**. Catching up and following are proved; a client that falls behind the committees it knows stays stuck until it is restarted (C69_behind_refuted), because advance gives up before it fetches a committee.
Theorems (`LightClient_Props.v`): `C69_catch_up`, `C69_follows`, `C69_behind_refuted`.

### C70 The reported head is backed by the sync committee

Optimistic and finality updates with arbitrary signature checks.

Status: **partial**. The rule is proved; right after the bootstrap it lets a single signature decide (C70_single_signer_refuted).
Theorems (`LightClient_Props.v`): `C70_rule`, `C70_single_signer_refuted`.

### C71 State content values are unambiguous

Codecs of the content values, inversion lemmas.

Status: **proved**. 
Theorems (`StateContent_Props.v`): `C71_round_trip`.

### C72 Streamed e2store files

Stream reader and writer; every cut point.

Status: **proved**. 
Theorems (`E2Store_Props.v`): `C72_append`, `C72_cut`, `C72_read`, `C72_readers_agree`, `C72_only_records`.

### C73 era1 files round trip

Records as in C46, index as words, tuples by induction.

Status: **partial**. Round trip and what reading returns are proved; any index count above the number of blocks makes reading panic (C73_count_refuted).
Theorems (`EraFiles_Props.v`, `EraRead_Props.v`): `C73_round_trip`, `C73_count_refuted`, `C73_reads_the_file`.

### C74 e2hs files round trip and their index is right

As C73; the streaming writer by an invariant on file, offset and index.

Status: **partial**. Round trip and index are proved; a count in the index above 8192 makes reading panic and one below it silently drops blocks (C74_count_refuted, C74_count_less_refuted).
Theorems (`EraFiles_Props.v`, `EraRead_Props.v`): `C74_round_trip`, `C74_count_refuted`, `C74_count_less_refuted`, `C74_writer`, `C74_reads_the_file`.

### C75 era files round trip

As C73, with slots that may be empty and fork-dependent decoders.

Status: **partial**. Round trip proved from the merge on; every era file from before it, the empty file and the version record alone make reading panic (C75_early_refuted, C75_short_refuted).
Theorems (`EraFiles_Props.v`, `EraRead_Props.v`): `C75_round_trip`, `C75_forks`, `C75_early_refuted`, `C75_short_refuted`, `C75_reads_the_file`.

### C76 State snapshots round trip

Writer and reader as state machines; the accepted sequences are characterised.

Status: **partial**. Round trip and the accepted sequences are proved; a file cut inside an account record is read as complete (C76_cut_refuted), one cut inside storage panics (C76_cut).
Theorems (`EraFiles_Props.v`, `EraRead_Props.v`): `C76_round_trip`, `C76_refused_unchanged`, `C76_cut_refuted`, `C76_cut`, `C76_reads_the_file`.

### C77 Legacy history values round trip

Codecs over arbitrary RLP codecs with the property that they read back their own encoding.

Status: **partial**. Proved for values within the limits. Values beyond them are encoded without an error but not read back: C77_unfit_header_refuted, C77_many_receipts_refuted, C77_uncles_refuted.
Theorems (`LegacyHistory_Props.v`): `C77_round_trip`, `C77_only_own_bytes`, `C77_no_panic`, `C77_unfit_header_refuted`, `C77_many_receipts_refuted`, `C77_uncles_refuted`.

### C78 Ping payloads are unambiguous

Codecs of the four payload types and the text of client descriptions; inversion lemmas for splitting at separators and for UTF-8.

Status: **partial**. Proved for values within the limits. A client description above 200 bytes is cut silently (C78_long_info_refuted), one whose system or architecture contains a dash makes the whole payload unreadable (C78_dash_refuted).
Theorems (`Ping_Props.v`): `C78_round_trip`, `C78_only_own_bytes`, `C78_no_panic`, `C78_client_info`, `C78_long_info_refuted`, `C78_dash_refuted`.

### C79 After a ping both sides know the other's radius

The messages as bytes, the two services and the routing table (C54) composed; case analysis over what each side knows.

Status: **partial**. All parts proved except the last reply: a ping whose payload cannot be read is answered as if it could (C79_unreadable_refuted).
Theorems (`Ping_Props.v`): `C79_exchange`, `C79_fits`, `C79_listed`, `C79_next_ping`, `C79_reply`, `C79_no_panic`, `C79_ignored`, `C79_unreadable_refuted`.

### C80 Content of a type belongs to one kind of store

The table of versions and the tables of all stores as one database, the running stores as handles; invariant over all events, including death at each statement.

Status: **proved**. 
Theorems (`Versioned_Props.v`): `C80_other_version_refused`, `C80_own_content`, `C80_one_store`, `C80_tables`, `C80_opens`.

### C81 The store of ephemeral content is a map that counts correctly

Refinement of a finite map by induction over the history; counts by an invariant.

Status: **partial**. The counts are exact as long as nothing is put that is already there, and never too low; content put again is counted again until the next restart (C81_repeated_insert_refuted).
Theorems (`Versioned_Props.v`): `C81_contents`, `C81_usage`, `C81_repeated_insert_refuted`.

### C82 Looking up a node's record gives that node's newest record

The calls as functions of the table and of all answers; case analysis.

Status: **partial**. Adding, getting and removing are proved, and where each result of a lookup comes from. That the result is the record of the node asked for holds only if the answers are (C82_lookup_partial); in general the record of another node is returned (C82_other_node_refuted, C82_answer_not_checked_refuted). A record can be added and not be retrievable (C82_added_not_found_refuted).
Theorems (`OverlayApi_Props.v`): `C82_add`, `C82_added_not_found_refuted`, `C82_delete`, `C82_own`, `C82_lookup`, `C82_lookup_partial`, `C82_other_node_refuted`, `C82_answer_not_checked_refuted`, `C82_search_connected_refuted`.

### C83 Requests are well formed and each is answered once, with its own answer

The set of open requests and waiting tasks as a state machine; invariant: every task belongs to one open request. The calls as functions of the answer of the service, composed with the codecs and with the serving side.

Status: **partial**. All parts proved for distinct request ids (they are random 128 bit numbers). Error payloads supplied by the user are sent in pings (C83_error_ping_refuted); the number of accept codes is not compared with the number of items offered (C83_offer_codes_refuted).
Theorems (`OverlayApi_Props.v`): `C83_answered_once`, `C83_own_answer`, `C83_all_answered`, `C83_find_nodes`, `C83_ping`, `C83_error_ping_refuted`, `C83_found_content_valid`, `C83_found_content_arrives`, `C83_find_content_refused`, `C83_sent_keys`, `C83_offer_trace`, `C83_offer_codes_refuted`.

### C84 The bridge knows exactly the nodes that answer, and keeps checking them

The known nodes and deadlines as a state machine over found records, due checks and offer results; refinement to a per-node history (standing), invariant on schedules.

Status: **partial**. All parts proved over all histories, except: a known node that answers a check with another kind of payload is not scheduled again (C84_scheduled_partial, C84_scheduled_refuted), and setting up goes on for ever, without an error, while no node answers (C84_init_refuted). Checks are atomic steps. The rounding of the stop condition is modelled (C84_enough: exactly as for rational numbers).
Theorems (`Census_Props.v`): `C84_sound`, `C84_known`, `C84_found`, `C84_due`, `C84_offered`, `C84_scheduled_partial`, `C84_scheduled_refuted`, `C84_newest`, `C84_enough`, `C84_init_refuted`, `C84_init_result`.

### C85 Content is offered to interested nodes in good standing

The weight as a function of the kept events; equality with a score that counts events; the choice as an arbitrary function that keeps its contract.

Status: **proved**. The random choice is any that takes as many as asked for or all; that heavier nodes are chosen more often is a statement about probabilities and not modelled.
Theorems (`Census_Props.v`): `C85_weight`, `C85_small`, `C85_left_out`, `C85_selected`.

### C86 Every block is executed with the rules of its time

The table of forks as a function; a specification by activation blocks; case analysis over all intervals.

Status: **partial**. For blocks before Prague (22431084). From that block on the rules of Cancun are chosen (C86_rules_refuted).
Theorems (`Rewards_Props.v`): `C86_rules_partial`, `C86_rules_refuted`, `C86_enabled`, `C86_block_number`, `C86_uses`.

### C87 A block credits exactly its rewards and moves the DAO's funds once

The map of payments and the balances as functions; sums over lists with permutations of the map.

Status: **proved**. Balances are bounded so that no sum overflows. The effects of [drain_balances] and [increment_balances] are those of the revm crate as documented.
Theorems (`Rewards_Props.v`): `C87_balances`, `C87_supply`, `C87_old_uncle`.

### C88 Slices divide the key space

The filter on 256-bit numbers; paths as numbers in base 16; division lemmas.

Status: **proved**. Slices are not used by the programs at the pinned commit (the walks get no filter). A leaf whose path is short can be in two slices (C88_example).
Theorems (`Walker_Props.v`): `C88_slices`, `C88_one`, `C88_paths`, `C88_refused`.

### C89 A walk visits every node of a trie once, in order, with its proof

The stack machine of the walker as a step function; the list of visits of a node by recursion over the trie; the stack is a list of pending visits (invariant); membership, order and proofs by induction over the trie.

Status: **proved**. The database returns what was stored under a hash, or nothing. A missing node in a walk over a whole trie is a panic (C89_missing_refuted).
Theorems (`Walker_Props.v`): `C89_whole`, `C89_slice`, `C89_changed`, `C89_missing_refuted`.

### C90 The state bridge sends everything, only valid content, and nothing twice

The loops over the items as relations; each content against the model of the validator (C71, C28), using the items of C89; disjointness of keys from the uniqueness of leaf paths.

Status: **proved**. For codes of at most 32768 bytes; longer ones are cut and what is sent is refused (C90_long_code_refuted). The content is checked with the header check that is switched off at the pinned commit, and so also without it. Errors of offers are not modelled.
Theorems (`Walker_Props.v`): `C90_snapshot`, `C90_changed`, `C90_shared`, `C90_long_code_refuted`.

### C91 Reads of the execution database return what was committed

The database as a key-value map with one key space, tries as maps with an arbitrary root function, functions in a state and error monad; a world of accounts, slots, codes and hashes as specification; an invariant that relates both, kept by every operation; induction over histories.

Status: **partial**. For histories in which the keys of the addresses, codes and block numbers that occur are different. A contract can be deployed whose code is the address of an account or a block number; then it replaces that entry (C91_code_as_address_refuted, C91_code_as_number_refuted). Slots of accounts that were never created are errors, as in the code.
Theorems (`ExecDb_Props.v`): `C91_history`, `C91_code_as_address_refuted`, `C91_code_as_number_refuted`.

### C92 A commit is accepted exactly with the right state root and survives a restart

The same invariant; the trie is compared with the world; a restart reads the position and opens the saved trie.

Status: **partial**. For a stop between commits. A crash inside a commit, or a commit whose root does not match, leaves new entries at the old position (C92_crash_refuted, C92_mismatch_refuted, C92_storage_crash_refuted). [eth_trie] is modelled by its contents and an arbitrary root function.
Theorems (`ExecDb_Props.v`): `C92_root`, `C92_restart`, `C92_crash_refuted`, `C92_mismatch_refuted`, `C92_storage_crash_refuted`.

### C93 The hashes of the last 256 blocks are served

The hashes of a world after consecutive blocks in closed form, by induction over the history.

Status: **partial**. Except for block 0, whose hash is never stored (C93_genesis_refuted), and after a crash that lost executed blocks (C93_crash_refuted).
Theorems (`ExecDb_Props.v`): `C93_window`, `C93_served`, `C93_genesis_refuted`, `C93_crash_refuted`.

### C94 Blocks are executed one after another, each once

The manager of files as a record, a call as a recursion over rounds whose inputs are arbitrary; an invariant that the manager holds the file of its next block or the one before; induction over rounds and calls; the database is that of C91.

Status: **partial**. While calls succeed, and after a restart. Without a restart, a block that the EVM rejects once is left out by the next call (C94_retry_refuted), and one failed download makes all later calls fail (C94_download_refuted).
Theorems (`ExecRun_Props.v`): `C94_order`, `C94_done`, `C94_restart`, `C94_retry_refuted`, `C94_download_refuted`, `C94_reads`.

### C95 A snapshot carries the whole state to another node

Export and import as functions on lists of items over the database of C91; chunks concatenate to the list; an invariant that the imported leaves are exactly those of the world so far, kept by the items of one account; then the invariant of C91 holds of the new node.

Status: **partial**. For an import into a new database that succeeds. What a failed import wrote remains and is read after the next one (C95_retry_refuted); a failed download of the block hashes leaves a node that starts without them and cannot import again (C95_hashes_refuted). C95_sound assumes that keys of accounts, codes and block numbers are different.
Theorems (`ExecSnap_Props.v`): `C95_round_trip`, `C95_sound`, `C95_retry_refuted`, `C95_hashes_refuted`.

### C96 Balances, code and storage read over the network are those of the block

The session with its cache as a state monad over an arbitrary network; a walk step is compared with the trie through C28; induction over the rest of the path; the cache holds only what came; then induction over queries.

Status: **partial**. Sound for all answers that validation or the store let through, if none of them is another node with the same hash. Complete except for the slots of accounts without storage, whose reads fail (C96_empty_storage_refuted). One answer in the form with proof makes a read fail (C96_proof_answer_refuted); codes are read only after their account, and block hashes not at all (C96_unread_refuted).
Theorems (`EvmState_Props.v`): `C96_sound`, `C96_rpc_sound`, `C96_complete`, `C96_rpc`, `C96_empty_storage_refuted`, `C96_unread_refuted`, `C96_proof_answer_refuted`.

### C97 The eth_ methods show blocks and states of the chain

An answer of GetContent is the stored or the validated value of a reached node, so C52 applies to each; the header and the body are joined by the hash of the header; the state is joined by the state root through C96.

Status: **partial**. Sound for every chain, every node that took content only from the network and every answer of peers, unless two headers of the chain have one hash. The withdrawals are the right ones or missing: a peer can leave them out (C97_stripped_refuted). Tags such as latest and full transactions are not supported (C97_unsupported). Complete if the lookups give header and body, or header and state (C97_complete, C97_state_complete).
Theorems (`EthApi_Props.v`): `C97_answers`, `C97_block`, `C97_unsupported`, `C97_complete`, `C97_stripped_refuted`, `C97_state`, `C97_state_complete`.

### C98 eth_call executes what was asked, on the state of the block that was named

The EVM is an arbitrary tree of questions; induction over it, with the session of C96 after the questions so far; the environment is compared with a specification of the fields.

Status: **partial**. Sound for every EVM (a program that asks a database), every request and every answer of peers; before block 22431084 under the right rules (C86). Complete for executions that read no hash of a block and no slot of an account without storage (C98_complete_partial). Missing: a request without a recipient is not a creation, its type and authorizations are ignored, a fee cap is paid in full, and senders that have sent transactions or cannot pay for a whole block are refused unless they name a nonce and a price (C98_*_refuted).
Theorems (`EthCall_Props.v`): `C98_sound`, `C98_ends`, `C98_complete_partial`, `C98_create_refuted`, `C98_type_refuted`, `C98_sender_refuted`, `C98_price_refuted`.

### C99 Blocks are executed transaction by transaction, as their headers and transactions say

A specification of the fields of transactions and of a block as relations; the fields are overwritten completely (uniqueness of the environment), then induction over the transactions.

Status: **partial**. An equivalence, for every EVM, before block 22431084 (Prague, C86) and for blocks without transactions of EIP-7702, which stop the program (C99_7702_refuted); tracing and history do not matter for any block (C99_tracing). Missing: a payment that fails is ignored and the block reported as executed (C99_payment_refuted); the EVM and the cache of its database are arguments.
Theorems (`BlockExec_Props.v`): `C99_transaction`, `C99_block_partial`, `C99_tracing`, `C99_counts`, `C99_payment_refuted`, `C99_7702_refuted`.

### C100 Execution blocks built from beacon blocks are right and are accepted by the network

A record of what a header must have for each fork; equivalence by cases; acceptance from the theorems on honest proofs (C64).

Status: **proved**. An equivalence (C100_block) with a separate description of the header (Builders_Spec.describes), and acceptance of header, proof and body for every block of the chain (C100_accepted, on C64); the trees of payload, body and block against the containers of the specification (C100_trees). The codecs of transactions, the roots of tries and lists and the hash of requests are arguments.
Theorems (`Builders_Props.v`): `C100_block`, `C100_panic`, `C100_trees`, `C100_accepted`.

### C101 A history file that is written has the blocks of its index and only blocks of the chain

Servers are functions; soundness by induction on the blocks; the search by an invariant on the interval; completeness by following the provider through the files.

Status: **partial**. Proved for the answers of all servers: contents of a finished file (C101_file), the search (C101_search) and success with honest servers (C101_honest). Missing because false of the code: that a failed run can be repeated (C101_retry_refuted) and that every run ends (C101_endless_refuted). The servers answer the same question in the same way during a run.
Theorems (`E2hsWriter_Props.v`): `C101_search`, `C101_file`, `C101_retry_refuted`, `C101_endless_refuted`, `C101_honest`.

### C102 The files written at the head of the chain follow each other and have only blocks of the chain

Servers are functions, one per round; a finished file is sound by induction on its blocks with an invariant on the summaries and the roots held; completeness by following the search over the empty slots; the refuted parts are attack theorems over all servers of a kind.

Status: **partial**. Proved for the answers of all servers in all rounds: the sequence and the contents of the files (C102_sequence), success with complete servers (C102_honest) and the restart (C102_restart). Missing because false of the code: success when the first slot after a period has no state (C102_skipped_refuted), that every attempt ends (C102_endless_refuted), that a listing that breaks off is noticed (C102_listing_refuted) and that a failure is reported (C102_silent_refuted). Within one file a server answers the same question in the same way.
Theorems (`HeadGen_Props.v`): `C102_sequence`, `C102_endless_refuted`, `C102_skipped_refuted`, `C102_honest`, `C102_restart`, `C102_listing_refuted`, `C102_silent_refuted`.

### C103 The bridge from history files offers the blocks of its range, all of them and no others

The tasks are a transition system with the peers, their answers and the schedule as arguments; invariants by induction over runs relate the state of every task to the trace; progress by cases on what every task waits for, termination by a measure. The script of the main loop is computed from the files, and its blocks are characterised by membership.

Status: **partial**. Proved for all servers, peers and schedules: the epochs of a range (C103_epochs, C103_directory), the blocks (C103_blocks), what is offered (C103_valid, C103_accepted), the order (C103_order), the limits (C103_limits), the report (C103_complete), and that it is reached (C103_progress, C103_steps). Missing because false of the code: that proofs with historical summaries are checked (C103_unproved_refuted), that only blocks of the range are offered by a wrong file (C103_outside_refuted), that a range past the last file is refused (C103_missing_refuted), the last epoch with overflow checks (C103_last_refuted) and progress with a limit of 0 (C103_zero_refuted).
Theorems (`E2hsBridge_Props.v`): `C103_epochs`, `C103_last_refuted`, `C103_directory`, `C103_blocks`, `C103_valid`, `C103_order`, `C103_limits`, `C103_complete`, `C103_progress`, `C103_steps`, `C103_zero_refuted`, `C103_missing_refuted`, `C103_unproved_refuted`, `C103_outside_refuted`, `C103_accepted`.

### C104 The bridge at the head of the chain gossips the blocks of the chain, and with proofs when a period is over

The state of the bridge is its map of blocks and its cache of receipts; each event of the beacon API is a step with the answers of the clients as an argument. An invariant relates both maps to what was served in the history; along a growing chain another says which blocks and receipts are kept.

Status: **partial**. Proved: what a bundle contains (C104_bundle, C104_receipts), when nothing is done (C104_quiet), that only an unsound block, or an overflow in a debug build, stops the bridge (C104_stops), the run along a chain (C104_honest, C104_proven), the gossip of a finalized period (C104_finalized, C104_headers), the contents (C104_contents) and that nodes accept bodies and receipts (C104_accepted). Missing because false of the code: right receipts after a re-org (C104_reorg_refuted), all blocks when the first slot of a period is empty (C104_skipped_refuted, C104_roots_refuted) or when a checkpoint was missed (C104_lost_refuted), and the acceptance of headers without proofs (C104_refused_refuted).
Theorems (`EphBridge_Props.v`): `C104_bundle`, `C104_quiet`, `C104_receipts`, `C104_stops`, `C104_reorg_refuted`, `C104_finalized`, `C104_skipped_refuted`, `C104_lost_refuted`, `C104_honest`, `C104_proven`, `C104_contents`, `C104_accepted`, `C104_refused_refuted`, `C104_headers`, `C104_roots_refuted`.

### C105 Arguments of the command lines mean what they say

Strings are byte lists; the parsers are modelled with the splitting and number parsing of the standard library and compared with an inductive description of the accepted texts. The empty range is followed into the model of the bridge from history files.

Status: **partial**. Proved: exactly which strings are accepted and what they mean (C105_mode, C105_written, C105_range, C105_id, C105_subnetworks, C105_names, C105_trace, C105_key), one bridge for each content (C105_one_bridge), and what a bridge does (C105_dependencies, C105_work). Missing because false of the code: a message instead of a panic for bad arguments (C105_mode_panics_refuted, C105_unsupported_refuted), and the refusal of a range that ends before it begins (C105_empty_range_refuted).
Theorems (`Args_Props.v`): `C105_mode`, `C105_written`, `C105_mode_panics_refuted`, `C105_range`, `C105_empty_range_refuted`, `C105_id`, `C105_one_bridge`, `C105_subnetworks`, `C105_names`, `C105_trace`, `C105_key`, `C105_dependencies`, `C105_work`, `C105_unsupported_refuted`.

### C106 The beacon bridge offers what is new, once, under its key

A task is the point it has reached; a step of any task with any answers of the outside is an operation, so that executions are all interleavings. Invariants by induction over executions, for one type of task at a time; acceptance against the model of the validator (C65).

Status: **partial**. Proved for every interleaving: what is offered and to whom (C106_contents), and when nodes accept it (C106_accepted, C106_summaries_proof). Proved for ticks that do not overlap in the deciding part: each slot, period and root once, one download at a time (C106_finality, C106_updates, C106_bootstraps, C106_states), and that a tick offers everything that is new (C106_tick). Missing because false of the code: the same for overlapping ticks (C106_twice_refuted), for epochs (C106_epoch_twice_refuted), and recovery from a failed download of a state (C106_stuck_refuted) or a failure of the census (C106_lost_refuted).
Theorems (`BeaconBridge_Props.v`): `C106_contents`, `C106_accepted`, `C106_summaries_proof`, `C106_finality`, `C106_updates`, `C106_bootstraps`, `C106_states`, `C106_twice_refuted`, `C106_lost_refuted`, `C106_stuck_refuted`, `C106_epoch_twice_refuted`, `C106_tick`.

### C107 A node keeps its identity, its directory and its checkpoint across restarts and crashes

A data directory is a key file and a list of directories; a start of a node is one step that may stop anywhere in the writing of the key. Induction over sequences of starts; the file never changes once it is there. The elliptic curve is a parameter.

Status: **partial**. Proved: one identity through all histories and crashes (C107_identity, C107_one_identity, C107_generated), given keys (C107_given), directories (C107_data_dir, C107_directories, C107_directory), the checkpoint (C107_checkpoint). Missing because false of the code: that a crash does no lasting harm (C107_crash_refuted with C107_crash_points: the node never starts again; C107_checkpoint_lost_refuted: the checkpoint before is lost), and that nodes do not share directories (C107_shared_refuted).
Theorems (`Identity_Props.v`): `C107_data_dir`, `C107_identity`, `C107_one_identity`, `C107_generated`, `C107_given`, `C107_directories`, `C107_directory`, `C107_shared_refuted`, `C107_crash_refuted`, `C107_crash_points`, `C107_checkpoint`, `C107_checkpoint_lost_refuted`.

### C108 Requests and events reach the subnetworks they are for

The tables of identifiers are compared with the two-byte identifiers of the specification through the injectivity of hexadecimal notation; the loop is a map over the arrivals, and the queue of a subnetwork is characterised by an inductive selection from them.

Status: **partial**. Proved: who gets a request and who answers (C108_talk, C108_sent, C108_answer, C108_empty, C108_panic), events (C108_events), the queues (C108_queues, C108_start), main network against others (C108_networks). Missing because false of the code: that the test networks do not serve each other (C108_testnets_refuted).
Theorems (`Dispatch_Props.v`): `C108_talk`, `C108_sent`, `C108_networks`, `C108_testnets_refuted`, `C108_panic`, `C108_events`, `C108_queues`, `C108_start`, `C108_answer`, `C108_empty`.

### C109 The light client starts from the checkpoint that most services report for the latest epoch

The services are arguments: each is up or not and answers with slots. The choice is characterised by counting votes; the order of the hash map is any permutation.

Status: **partial**. Proved: which root is taken (C109_checkpoint, C109_found, C109_majority), the order of attempts (C109_start), the address (C109_url). Missing because false of the code: that one service cannot decide alone (C109_one_service_refuted), that the answer is determined (C109_tie_refuted), that the start never crashes (C109_panic_refuted).
Theorems (`Checkpoints_Props.v`): `C109_checkpoint`, `C109_found`, `C109_majority`, `C109_one_service_refuted`, `C109_start`, `C109_panic_refuted`, `C109_tie_refuted`, `C109_url`.

### C110 The trace of a lookup says what happened in it

Maps are functions; induction over the calls from the end. What a record must be is stated over what was seen in the calls. For lookups an invariant: what is listed is known to the query.

Status: **partial**. Proved: source, nodes, records, answers and failures for all sequences of calls (C110_source, C110_nodes, C110_records, C110_answers, C110_failures); for lookups C110_answer, C110_once, C110_all, C110_found, C110_cancelled, C110_local. Missing because false of the code: that it shows all that every node named (C110_hidden_refuted, C110_forgotten_refuted).
Theorems (`Trace_Props.v`): `C110_source`, `C110_nodes`, `C110_records`, `C110_answers`, `C110_failures`, `C110_answer`, `C110_once`, `C110_all`, `C110_found`, `C110_local`, `C110_cancelled`, `C110_hidden_refuted`, `C110_forgotten_refuted`.

### C111 A lookup of nodes returns the records of the nearest nodes that answered

A lookup is the query of C31 with a list of records; what the service knows besides at each poll is an argument. A simulation maps each history of the service to a history of the query, so C31, C32 and C37 apply; an invariant relates the records kept to those told.

Status: **partial**. Proved: which nodes are asked and how (C111_asked, C111_skipped), the result (C111_result, C111_complete, C111_empty), no panic (C111_no_panic). Missing because false of the code: that a search for a node can find it (C111_target_refuted, C111_record_refuted), that failed requests are noticed at once (C111_failure_refuted), that a node does not ask itself (C111_self_refuted), that the newest record told is returned (C111_stale_refuted). The request itself and its answer are C83 and C37.
Theorems (`NodeLookup_Props.v`): `C111_skipped`, `C111_asked`, `C111_no_panic`, `C111_result`, `C111_complete`, `C111_target_refuted`, `C111_record_refuted`, `C111_failure_refuted`, `C111_self_refuted`, `C111_stale_refuted`, `C111_empty`.

### C112 Joining the network

A fold over the bootnodes of the routing table of C54, and the random ids of C61; lookups are represented by their target and the nodes they start with. Which peers those are is C38.

Status: **partial**. Proved: bootnodes (C112_bootnodes), targets (C112_targets), refreshes (C112_refresh, C112_recovers). Missing because false of the code: that the lookups at the start happen (C112_no_lookup_refuted), and that their targets cover the farther half of the ids (C112_far_half_refuted). The bootnodes are taken to have different ids. The order of pings and refreshes in time is not modelled: the interval is 60 seconds.
Theorems (`Join_Props.v`): `C112_bootnodes`, `C112_targets`, `C112_far_half_refuted`, `C112_no_lookup_refuted`, `C112_refresh`, `C112_recovers`.

### C113 What users get over JSON-RPC

Values of serde_json as a datatype, texts as bytes with the escapes of JSON; a reply is an answer or one of the errors of the server. The phrase that marks an error as content not found is shown to survive the escapes; every other error starts with a letter, so it is not read as an object.

Status: **partial**. Proved: C113_get, C113_trace_get, C113_local, C113_store, C113_offer, C113_unchanged, C113_find, C113_ping, C113_codes and C113_reasons (codes and texts say the kind of error), C113_strings (strings of JSON are read back). Of serde_json it is assumed that it reads back the text of an error it wrote, and that the text of an object or list starts as such; C113_example has a reader that does. Missing because false of the code: the code -39001 for content that is not in the local store (C113_local_code_refuted). The methods for records of nodes, pages of keys, radius and routing table hand on C83, C50, C54.
Theorems (`UserApi_Props.v`): `C113_get`, `C113_trace_get`, `C113_local`, `C113_local_code_refuted`, `C113_store`, `C113_offer`, `C113_unchanged`, `C113_find`, `C113_ping`, `C113_codes`, `C113_strings`, `C113_reasons`.

### C114 Starting a node and the methods it serves

Names of methods as strings, copied from the interfaces; installing modules as merging lists of names with the answering channel, a panic on a name twice; servers as places with what they accept and serve, the system as functions from what is bound already. The names are told apart by their prefixes, checked over all names; lists of modules by induction.

Status: **partial**. Proved: C114_where, C114_methods, C114_networks, C114_no_panic, C114_selection, C114_listeners, C114_cors, C114_origins, C114_cors_conflict. Missing because false of the code: a start with every list of networks the command line accepts (C114_repeated_refuted), one server for one port (C114_same_port_refuted), no server on other addresses than the configured one (C114_everywhere_refuted), default ports (C114_default_ports_refuted), spaces in lists of origins (C114_cors_space_refuted). What the set-up of a network does is not modelled here.
Theorems (`Serve_Props.v`): `C114_selection`, `C114_listeners`, `C114_default_ports_refuted`, `C114_where`, `C114_methods`, `C114_networks`, `C114_no_panic`, `C114_repeated_refuted`, `C114_same_port_refuted`, `C114_everywhere_refuted`, `C114_cors`, `C114_cors_space_refuted`, `C114_cors_conflict`, `C114_origins`.

### C115 Asking the providers of data

The providers as one function from all requests made so far and the next to what comes back; every function gives the longer history and its result. Retries by induction, one lemma that a function makes one request and takes the answer the specification names, one for two of them in turn; JSON values as a type with a relation for what holds data; numbers in text read back by induction over their digits.

Status: **partial**. Proved: C115_beacon, C115_updates, C115_endpoints, C115_block, C115_body, C115_latest, C115_receipts, C115_receipts_wait, C115_batches, C115_start, C115_secrets, C115_events. Missing because false of the code: answers in JSON with a named character set (C115_charset_refuted), providers under a path (C115_path_refuted), the second provider after an error in JSON (C115_error_refuted), the block of the height asked for (C115_height_refuted), batches answered in another order (C115_order_refuted), secrets for their operator only (C115_secrets_refuted). Redirections and time are not modelled.
Theorems (`Providers_Props.v`): `C115_beacon`, `C115_updates`, `C115_endpoints`, `C115_block`, `C115_body`, `C115_latest`, `C115_receipts`, `C115_receipts_wait`, `C115_batches`, `C115_start`, `C115_secrets`, `C115_events`, `C115_charset_refuted`, `C115_path_refuted`, `C115_error_refuted`, `C115_height_refuted`, `C115_order_refuted`, `C115_secrets_refuted`.

### C116 Runs of the state bridge

The loop over what happens in each round, on the model of trin-execution; one lemma that a successful round executes and commits exactly the next block of the chain and that the manager returns this block, then induction over the rounds. Snapshots: what the import leaves on disk from its steps, and that a start does not change what the next one finds.

Status: **partial**. Proved: C116_blocks, C116_snapshot, C116_again. Missing because false of the code: a database that survives a launch that fails (C116_deleted_refuted), the snapshot that was asked for (C116_number_refuted; its root is not compared with the block of the chain either, C116_snapshot_example), a launch that can be repeated after a failed download (C116_stuck_refuted). What is offered for the nodes of a trie is in other properties.
Theorems (`StateRun_Props.v`): `C116_blocks`, `C116_snapshot`, `C116_again`, `C116_deleted_refuted`, `C116_number_refuted`, `C116_stuck_refuted`.

### C117 From the light client to the head of the chain

The client, the three channels and the head as one state, and any list of arrivals and readings as its schedule; an invariant that ties what the client has, what was published, what waits and what the head has, by induction over the schedule. The attempts by induction over their number.

Status: **partial**. Proved: C117_verified, C117_not_ahead, C117_caught_up (order of the published updates as hypothesis), C117_told, C117_attempts. Missing because false of the code: a finalized header only with two thirds of the committee (C117_minority_refuted), being as far as the client without the order (C117_lost_refuted) and right after the first sync (C117_before_refuted).
Theorems (`HeadFollow_Props.v`): `C117_verified`, `C117_not_ahead`, `C117_caught_up`, `C117_told`, `C117_lost_refuted`, `C117_minority_refuted`, `C117_before_refuted`, `C117_attempts`.

### C118 Starting the light client

Builder, file and start as functions with the outcomes of syncs and the answers of services as arguments; case analysis for one start, induction over the list of starts; arithmetic for the times.

Status: **partial**. Proved: C118_checkpoint, C118_settings, C118_saved, C118_torn, C118_start, C118_trust, C118_pace. Missing because false of the code: the checkpoint saved before survives a crash while the next is saved (C118_torn_refuted), a root of a service is dropped if the sync from it fails (C118_replaced_refuted), services over the portal network (C118_portal_panics_refuted), a start after a start that failed if the client has a server (C118_port_refuted), every slot if asking takes four seconds (C118_pace_refuted).
Theorems (`LcStart_Props.v`): `C118_checkpoint`, `C118_settings`, `C118_saved`, `C118_torn`, `C118_torn_refuted`, `C118_start`, `C118_trust`, `C118_replaced_refuted`, `C118_portal_panics_refuted`, `C118_port_refuted`, `C118_pace`, `C118_pace_refuted`.

### C119 The address of a node and the records of other nodes

The choice of the address as a function of the settings and the answers from outside, case analysis; the cache as a list, most recently used first, with an invariant over histories; induction over the list of nodes for lookups.

Status: **partial**. Proved: C119_address, C119_refused, C119_contact, C119_fresh, C119_start, C119_cache, C119_kept, C119_right_node, C119_deleted, C119_lookup, C119_lookup_finds, C119_utp, C119_lease. Missing because false of the code: an address of IPv6 (C119_ipv6_refuted), the port the user gives (C119_port_refuted), two starts in one second (C119_same_second_refuted), a start with a bootnode that is refused (C119_bootnode_refuted), a record is gone after it is deleted, and the newest is given (C119_deleted_refuted), a lookup goes on after a node that does not answer (C119_silent_refuted) and finds what a named node knows (C119_distance_refuted), the mapping outlives a renewal that fails (C119_lease_refuted).
Theorems (`DiscNode_Props.v`): `C119_address`, `C119_refused`, `C119_contact`, `C119_ipv6_refuted`, `C119_port_refuted`, `C119_fresh`, `C119_same_second_refuted`, `C119_start`, `C119_bootnode_refuted`, `C119_cache`, `C119_kept`, `C119_right_node`, `C119_deleted`, `C119_deleted_refuted`, `C119_lookup`, `C119_lookup_finds`, `C119_silent_refuted`, `C119_distance_refuted`, `C119_utp`, `C119_lease`, `C119_lease_refuted`.

### C120 The tools of the bridge: spaced keys, pace and reports

Keys as a function of the random draws; arithmetic on the circle of bytes and the bound of xor by the difference; the waits as functions of the readings of the clock; induction over the answers for the reports.

Status: **partial**. Proved: C120_keys, C120_spread, C120_wait, C120_wait_ends, C120_rounds, C120_report, C120_report_once, C120_report_none, C120_reasons. Missing because false of the code: the ids are spread over all ids from 128 keys on (C120_even_refuted), a slot is served when a round is a slot late (C120_late_refuted).
Theorems (`BridgeTools_Props.v`): `C120_keys`, `C120_spread`, `C120_even_refuted`, `C120_wait`, `C120_wait_ends`, `C120_rounds`, `C120_late_refuted`, `C120_report`, `C120_report_once`, `C120_report_none`, `C120_reasons`.

### C121 The check of a snapshot of the state

The loops as one function over the records with what is due; induction over the records, both ways; the records of an export by induction over the leaves.

Status: **partial**. Proved: C121_check (both directions), C121_export. Missing because false of the code: a file whose roots are wrong is refused (C121_roots_refuted), a file that is cut off after an account is refused (C121_cut_refuted).
Theorems (`SnapStats_Props.v`): `C121_check`, `C121_export`, `C121_roots_refuted`, `C121_cut_refuted`.

### C122 What nodes say of their protocol and the version they choose

The greatest element of a sorted list; RLP lemmas of Trie_Codec for both directions.

Status: **partial**. Proved: C122_names, C122_new, C122_supports, C122_common, C122_agree, C122_no_gap, C122_read, C122_round_trip, C122_only. Missing because false of the code: equal values are equal in order for versions that are made by hand (C122_unspecified_refuted).
Theorems (`ProtoInfo_Props.v`): `C122_names`, `C122_new`, `C122_supports`, `C122_common`, `C122_agree`, `C122_no_gap`, `C122_read`, `C122_round_trip`, `C122_only`, `C122_unspecified_refuted`.

### C123 What a node reports of itself

Transfers as tasks with a phase each, that go on in any order; the gauges are counts over the tasks and the counters counts over the log, by induction over the events. The head as a fold over updates and ticks with an invariant for the gauges. Bounds on the floating point operations of F64.

Status: **partial**. Proved: C123_transfers, C123_answers, C123_told, C123_summary, C123_messages, C123_labels, C123_head, C123_lag, C123_delays, C123_ticks, C123_radius, C123_radius_ends, C123_precision, C123_entries. Missing because false of the code: the chain head before the first update (C123_lag_refuted), the ticks when the clock is set back (C123_ticks_refuted), the number of entries after content is stored again or the node is started again (C123_entries_refuted, C123_entries_restart_refuted).
Theorems (`Metrics_Props.v`): `C123_transfers`, `C123_answers`, `C123_told`, `C123_summary`, `C123_messages`, `C123_labels`, `C123_head`, `C123_lag`, `C123_delays`, `C123_lag_refuted`, `C123_ticks`, `C123_ticks_refuted`, `C123_radius`, `C123_radius_ends`, `C123_precision`, `C123_entries`, `C123_entries_refuted`, `C123_entries_restart_refuted`.

### C124 Beacon data in text

The hex lemmas of C05 for both directions; numbers by induction from the right; transactions by induction with the room that is left.

Status: **partial**. Proved: C124_keys, C124_signatures, C124_commitments, C124_display, C124_versioned, C124_fixed, C124_lists, C124_numbers, C124_transactions. Missing because false of the code: keys, signatures and transactions of a wrong length are refused (C124_keys_refuted: cut or filled; C124_signatures_refuted: a panic; C124_transactions_refuted: cut), numbers without digits are refused (C124_numbers_refuted).
Theorems (`BeaconText_Props.v`): `C124_keys`, `C124_keys_refuted`, `C124_signatures`, `C124_signatures_refuted`, `C124_commitments`, `C124_display`, `C124_versioned`, `C124_fixed`, `C124_lists`, `C124_numbers`, `C124_numbers_refuted`, `C124_transactions`, `C124_transactions_refuted`.

### C125 Where the light client gets its data

Case analysis of the reply, with the lemmas on members of objects of C115; paths by the uniqueness of decimals.

Status: **partial**. Proved: C125_provider, C125_paths, C125_chain, C125_portal, C125_says. Missing because false of the code: a reply with the status of an error is refused (C125_status_refuted: the status is not looked at), at most as many updates as were asked for are taken (C125_count_refuted), a wrong clock does not stop the client (C125_clock_refuted: before the genesis it panics).
Theorems (`LcRpc_Props.v`): `C125_provider`, `C125_paths`, `C125_chain`, `C125_portal`, `C125_clock_refuted`, `C125_status_refuted`, `C125_count_refuted`, `C125_says`.

### C126 What the light client asks for, and when

Each run with a source that answers by its history is a run of the client of C48 with what was fetched; the questions are followed along the run.

Status: **proved**. Proved: C126_questions, C126_advance, C126_other_chain, C126_safety, C126_monotone. The safety is that of C48 (up to a broken signature or hash), now for sources that answer in any way; C126_case meets its hypotheses, over the network and with a provider.
Theorems (`LcSync_Props.v`): `C126_questions`, `C126_safety`, `C126_monotone`, `C126_other_chain`, `C126_advance`.

### C127 Storages of accounts and the state are apart in the one database of execution

Keys of storages have 64 bytes, the others 32 or 18; induction on the writes for the last one at a place.

Status: **proved**. Proved: C127_storage, C127_state, C127_position, C127_by_hash, C127_panic (a key that has not 32 bytes stops the program), C127_nothing. C127_case meets the hypotheses. C127_empty_refuted is about the shortcut for empty tries: it is for the hash of nothing, which is the root of no trie. Accounts, codes and block hashes share one area (see C91).
Theorems (`KeySpace_Props.v`): `C127_storage`, `C127_state`, `C127_position`, `C127_by_hash`, `C127_panic`, `C127_nothing`, `C127_empty_refuted`.

### C128 What a bridge reports of its offers

Induction on the events for counters and times; texts by case analysis.

Status: **partial**. Proved: C128_offers, C128_series, C128_times, C128_time, C128_running, C128_texts, C128_clients, C128_timer, C128_timers. Missing because false of the code: all offers are counted (C128_headers_refuted: series of headers are not), the number of series is not up to the peers (C128_names_refuted: each name of a client makes one), the text of a type is a name of it (C128_execution_refuted).
Theorems (`BridgeMetrics_Props.v`): `C128_texts`, `C128_clients`, `C128_execution_refuted`, `C128_offers`, `C128_series`, `C128_times`, `C128_time`, `C128_running`, `C128_headers_refuted`, `C128_names_refuted`, `C128_timer`, `C128_timers`.

### C129 Which files a page lists

The second piece of a link by the lemmas on splitting (C116), the map by induction on the links; a list without repetition that has 0 to n-1 and length n has nothing else.

Status: **partial**. Proved: C129_links, C129_consecutive, C129_era1, C129_complete, C129_e2ss, C129_panic, C129_shuffled. Missing because false of the code: a page with a bad link is an error (C129_panic: it stops the program; C129_dash_refuted: a dash in the path before the name is enough). The HTTP client, the parser of HTML and the joining of URLs are arguments.
Theorems (`FileIndex_Props.v`): `C129_links`, `C129_consecutive`, `C129_era1`, `C129_complete`, `C129_panic`, `C129_e2ss`, `C129_dash_refuted`, `C129_shuffled`.

### C130 Files are uploaded whole or not at all

The bucket as a state machine with failures chosen by the environment; induction on the parts that are sent; arithmetic of rounded division for their sizes.

Status: **partial**. Proved: C130_object, C130_whole, C130_served. Missing because false of the code: a failed upload leaves nothing behind (C130_left_refuted: its parts stay, the upload is never aborted), every file can be uploaded (C130_empty_refuted: an empty one stops the program). The rules of the bucket are those of S3 as documented; other clients of the bucket are not modelled.
Theorems (`Upload_Props.v`): `C130_object`, `C130_whole`, `C130_served`, `C130_left_refuted`, `C130_empty_refuted`.

### C131 The names of files

Decimal digits with leading zeros by induction; the order of equally long digits; composed with the pages of C129 and the listing of C102.

Status: **partial**. Proved: C131_index, C131_distinct, C131_order, C131_resume, C131_page. Missing because false of the code: the order of names for numbers of 100000 and more (C131_order_refuted: after history file 100000 the writer starts at 100000 again); a list that fails midway is C102_listing_refuted.
Theorems (`FileNames_Props.v`): `C131_index`, `C131_distinct`, `C131_order`, `C131_order_refuted`, `C131_resume`, `C131_page`.

### C132 Downloads of files

Induction over attempts and over pieces; rounding of doubles is bounded by a factor of two at each step, which keeps the expected time below 2^64 seconds.

Status: **partial**. Proved: C132_retries, C132_file, C132_unknown, C132_safe. Missing because false of the code: an error page is no file (C132_status_refuted), a failed connection is tried again (C132_unreached_refuted), progress reports never panic (C132_empty_refuted, C132_length_refuted), a failed download leaves the old file (C132_old_refuted).
Theorems (`Download_Props.v`): `C132_retries`, `C132_status_refuted`, `C132_unreached_refuted`, `C132_file`, `C132_unknown`, `C132_safe`, `C132_empty_refuted`, `C132_length_refuted`, `C132_old_refuted`.

## Findings

Behaviours of the code that the model shows and that contradict what a user might rely on. Theorem names in parentheses; entries without one were noticed while reading.

Content transfer and wire format

* A peer without a version entry in its record is taken to speak version 0, even by a node that does not (C53_chosen_version_is_supported_refuted); the check that a network's version list is sorted is computed and dropped (C53_spec_lists_are_sorted_refuted).
* One length prefix of five bytes makes the payload decoder reserve up to 4 GiB before it compares the length with the input (C55_allocation_bounded_refuted).
* Ping and pong payloads above 1100 bytes are cut silently (C08_decode_unambiguous_refuted).
* The fallback peer for a failed transfer can be the same node with an updated record (C10_fallback_is_other_node_refuted).
* A key whose transfer never ends is refused for as long as it keeps being offered, and an offer removes at most one overdue key (C58_*_refuted).
* Beacon keys stay in the accept queue after a failed transfer (C60_accepted_keys_released_refuted).
* A random connection id of 0 makes the offering side ignore an acceptance (C43_zero_id_means_nothing_accepted_refuted).
* When the two sides disagree on the protocol version, a value can be stored under another key of the offer or be dropped (C42_versions_agree_refuted).
* Lookup downloads and offers made through the API take no transfer slot (C45_all_transfers_refuted); small content is not served directly when no slot is free.
* A client description above 200 bytes is cut silently, one with a dash in the system or architecture makes the ping unreadable (C78_long_info_refuted, C78_dash_refuted); a ping that cannot be read is answered without an error (C79_unreadable_refuted).
* The store of ephemeral content counts content again that is put again (C81_repeated_insert_refuted), like the id-indexed store.
* `lookup_enr` returns the record of some other node whenever the node asked for is neither known nor found: it takes the newest of the records of the nodes near the target (C82_other_node_refuted). A known node can return any record as its own (C82_answer_not_checked_refuted). `add_enr` succeeds for an entry that has to wait for a place, which `get_enr` does not find (C82_added_not_found_refuted). Searching for a connected node returns nothing when only the overlay's table has its record (C82_search_connected_refuted).
* `send_ping` refuses to create an error payload but sends one it is given (C83_error_ping_refuted); `send_offer` returns however many codes the peer sent (C83_offer_codes_refuted).
* The bridge's census loses the next check of a known node that answers a ping with a payload other than capabilities: the check had been taken out of the queue, and no failure is recorded and no new check scheduled, so the node stays known and keeps being offered content (C84_scheduled_refuted).
* `Network::init` compares `new_peers < ending_peers * 0.1`, which is `0 < 0` as long as no node is known: it searches for ever instead of returning `FailedInitialization("No peers found")`, which can only be returned if all nodes known before an iteration are forgotten in it (C84_init_refuted, C84_init_result). The same loop runs for re-initialization inside the task that serves all networks.
* The fork table ends with Cancun: from block 22431084 (Prague on mainnet) blocks would be executed with Cancun's rules (C86_rules_refuted).
* An uncle more than eight generations old makes the reward calculation panic (C87_old_uncle).
* `TrieWalker` panics, instead of returning an error, when a node is missing from the database (C89_missing_refuted).
* Codes of more than 32768 bytes (which exist from before EIP-170's limit took effect, or would need the list type's bound) are cut by the bridge, and every node refuses what it sends (C90_long_code_refuted).
* Accounts, codes and block hashes of trin-execution are in one RocksDB key space, all under Keccak-256 hashes. Deploying a contract whose 20-byte code is the address of an account replaces that account's entry: the state root still matches, but reading the account and every later change to it fail (C91_code_as_address_refuted). A contract whose 32-byte code is a block number replaces the hash that BLOCKHASH returns for that block, and loses its code when the block leaves the window (C91_code_as_number_refuted).
* Commits of trin-execution are not atomic: a crash before the position is written, or a commit whose state root does not match, leaves the new accounts at the old position (C92_crash_refuted, C92_mismatch_refuted); a crash between the nodes of a storage trie and its account makes unchanged storage unreadable (C92_storage_crash_refuted).
* trin-execution never stores the hash of block 0 (C93_genesis_refuted), and blocks that were executed but not committed before a crash have already deleted hashes that their second execution needs (C93_crash_refuted).
* After a block that the EVM did not accept, trin-execution has moved its supply of blocks but not its position: the next call executes the block after it, and a call for only the next block can never end with success (C94_retry_refuted). After one failed download of a file every later call fails until the node is restarted (C94_download_refuted).
* The import of a snapshot checks that the position is 0, not that the database is empty. What a failed import has written is read after a later, successful one, although it is not in the state trie that was checked (C95_retry_refuted).
* The import stores the position before it fetches the block hashes. If the download fails, the import reports an error, but the node then starts after the snapshot without any block hash, and a second import is refused (C95_hashes_refuted).
* The import stores 257 block hashes, from number - 256 on; the oldest is never deleted (C95_round_trip states which).
* eth_getStorageAt, and every SLOAD of eth_call, fails for an account that has no storage: the walk asks the network for the root node of the empty trie, which nobody offers (C96_empty_storage_refuted). The right answer is 0.
* A peer that answers a request for a trie node with the form that carries a proof passes validation, also with an arbitrary chain of nodes (C30_any_node_refuted), but the reader of the state expects the bare node, so the read fails (C96_proof_answer_refuted).
* eth_call of a contract that uses BLOCKHASH fails: the hash of a block is not supported (C96_unread_refuted).
* eth_getBlockByHash shows a block after Shanghai without withdrawals if a peer leaves them out of the body (C97_stripped_refuted, through C52_stripped_refuted).
* eth_call without a recipient executes a call of address 0 and answers with empty output, instead of a creation (C98_create_refuted); the type and the authorizations of the request are ignored (C98_type_refuted), so that a request with a fee cap pays the cap (C98_price_refuted).
* eth_call from an account that has sent a transaction fails unless the request names the nonce, and from one that cannot pay for the gas of a whole block unless it names gas or price (C98_sender_refuted, for an EVM with revm's checks).
* A block with a transaction of EIP-7702 stops trin-execution with a panic (C99_7702_refuted). An error while paying the beneficiaries is ignored and the block counts as executed (C99_payment_refuted).

* A run of the history file writer that fails after the file was begun leaves the temporary file in the directory, and then every later run for that index fails because the file exists (single_generator/e2hs_builder.rs, e2hs.rs `create`): `C101_retry_refuted`.
* An era1 file that ends before its last block makes the provider fetch it again without end (provider.rs:116-158): `C101_endless_refuted`. The summaries that post-Capella proofs are checked against come from the downloaded era file itself; `C101_file` needs the assumption that they are right.
* If the first slot after a period has no state, the head generator takes the state of a later slot, whose block roots have already been overwritten from the front; the proofs built from it do not verify, so the file cannot be written until the code is changed, or else two explicitly named inputs of sha256 collide (head_generator/e2hs_builder.rs `get_state_for_next_period`): `C102_skipped_refuted`, met by `C102_skipped_example`.
* A consensus node whose states are always older than asked makes the head generator ask without end: `C102_endless_refuted`.
* A listing of the bucket that fails after the first page is taken for complete, so files are written again from an older index (s3_bucket.rs): `C102_listing_refuted`. A file that fails ends the program with success: `C102_silent_refuted`.
* The bridge does not check proofs with historical summaries before it gossips a header, so a file server can make it offer any header from after Capella (bridge/e2hs.rs `validate_block_tuple`): `C103_unproved_refuted`. In an epoch wholly in the range the number of a block is not compared with the range: `C103_outside_refuted`.
* A range that ends after the last file makes the bridge panic on the missing epoch, without a report: `C103_missing_refuted`; an offer limit of 0 makes it wait for ever: `C103_zero_refuted`; a range that ends before it starts gossips nothing and reports success (C103_epochs).
* The bridge at the head of the chain caches receipts by block number, so after a re-org and back it gossips a block with the receipts of the other one (bridge/ephemeral_history/mod.rs): `C104_reorg_refuted`. No node accepts the headers it offers without a proof: `C104_refused_refuted`.
* If the first slot of a period has no block, the last block of the period is dropped without having been gossiped (`C104_skipped_refuted`), and if the state that is served has other block roots, no node accepts the proofs (`C104_roots_refuted`). If one checkpoint was missed, the blocks of the next period are removed and not gossiped: `C104_lost_refuted`.
* A block whose payload does not have the hash of its header, or with a transaction that cannot be decoded, makes the bridge panic instead of skipping it (C104_stops).
* `--mode single:r…` panics on a part that is not a number, and on a first character that is not ASCII (portal-bridge types/mode.rs): `C105_mode_panics_refuted`. All combinations of mode and subnetwork that are not supported panic as well, among them the defaults (`latest` for `legacy_history`): `C105_unsupported_refuted`.
* `--e2hs-range` accepts a range that ends before it begins; the bridge then gossips nothing and reports that it is done (bridge/e2hs.rs [BlockRange]): `C105_empty_range_refuted`.
* One failed download of the beacon state leaves the flag of the historical summaries set: the beacon bridge never serves summaries again (bridge/beacon.rs:452-453, 237-248): `C106_stuck_refuted`. A failure of the census marks content as served that nobody was offered: `C106_lost_refuted`.
* Two ticks of the beacon bridge whose answers arrive together offer the same finality update twice (`C106_twice_refuted`), and the summaries of one epoch are served twice when the state is finalised between the two requests (`C106_epoch_twice_refuted`).
* The private key of a node is written in place (db.rs [get_application_private_key]): a crash right after the file was created leaves an empty file, and the node refuses every later start until someone removes it: `C107_crash_refuted`, `C107_crash_points`. The checkpoint of the light client is written in the same way; there the default is used, but the checkpoint saved before is lost: `C107_checkpoint_lost_refuted`.
* The directory of a node is named after the first four bytes of its node id: two keys may share a directory, and so the databases in it: `C107_shared_refuted`.
* Angelfood and Sepolia have the same protocol identifiers (network_spec.rs), so their nodes serve each other's requests: `C108_testnets_refuted`.
* The checkpoint of the services is that of the latest epoch claimed by any of them: one service that claims a later epoch decides alone, whatever the others say (checkpoints.rs [fetch_latest_checkpoint_from_services]): `C109_one_service_refuted`. Ties are decided by the order of a hash map: `C109_tie_refuted`. A fallback service that answers with no slots makes the client panic at its start: `C109_panic_refuted`.
* The trace of a lookup lists under a node only the nodes that the query did not know before, and drops the list when the node sends content: `C110_hidden_refuted`, `C110_forgotten_refuted`.
* A search for a node never asks that node and never returns it, however often it is named, because there is no distance to ask it for (query_info.rs [findnode_log2distance], manager.rs [query_event_poll]): `C111_target_refuted`. So `lookupEnr` of a node that is not in the routing table gives an error or the record of another node, never its own: `C111_record_refuted`.
* A failed request is not reported to the lookup it belongs to; its node takes up one of the parallel requests until its time is up: `C111_failure_refuted`.
* The local node is not removed from the answers: a node that is named asks itself (find_nodes.rs [advance_find_node_query]): `C111_self_refuted`. Newer records told later are dropped: `C111_stale_refuted`.
* The lookups that a node makes when it starts never happen: the bootnodes are added as not connected, and a lookup starts only with connected nodes, so each of the 18 ends at once (manager.rs [initialize_routing_table], find_nodes.rs [init_find_nodes_query]): `C112_no_lookup_refuted`. The table is first filled by the refresh a minute later, if a bootnode has answered a ping by then: `C112_recovers`. Even so the 18 targets leave out the farthest bucket, half of the network (`238..255` instead of `239..256`): `C112_far_half_refuted`.
* `portal_*LocalContent` for content that is not stored answers -32099, the code of every other error, not -39001: the text does not have the phrase that [proxy_to_subnet] looks for, and on the beacon network it is not JSON (jsonrpc.rs [local_content], fetch.rs): `C113_local_code_refuted`.
* A list of networks with a repetition, such as `--portal-subnetworks beacon,beacon`, passes all checks of the command line; the node starts its networks and then panics, as the methods of the module are registered twice (rpc builder.rs [module_for], lib.rs): `C114_repeated_refuted`.
* With `--ws`, the whole interface is open to other computers at 0.0.0.0, although `--web3-http-address` is by default, or was set to, an address of this computer alone (rpc lib.rs): `C114_everywhere_refuted`.
* `--ws-port` equal to the port of HTTP gives one server only if HTTP is at 0.0.0.0 too. With the default address two servers ask for the port and the node does not start, against the comment of [build_ws_http] (rpc_server.rs): `C114_same_port_refuted`.
* Without configured addresses, HTTP and WebSockets are both at port 8545; the documented default 8546 is not used, as two missing addresses count as equal (rpc_server.rs [build_ws_http]): `C114_default_ports_refuted`.
* A space after a comma in a list of origins becomes part of the origin, which then never matches (cors.rs): `C114_cors_space_refuted`.
* A provider that replies with `application/json; charset=utf-8` is never understood, as the whole header is compared (consensus/mod.rs [base_request]): `C115_charset_refuted`.
* The path of the URL of a beacon provider, such as a key, is left out of all requests, as the endpoints start with a slash; that of an execution provider is kept (http_client.rs [get]): `C115_path_refuted`.
* An error in JSON, as for too many requests, counts as an answer of the first execution provider: the second is not asked and receipts are not asked for again, against the comment of [get_receipts] (execution.rs): `C115_error_refuted`.
* [get_block] takes any block after the merge for the one of the height asked for, and one with hashes of transactions only as one without transactions, though the type is documented to validate the data (execution.rs): `C115_height_refuted`.
* The answers to a batch are given to blocks by their place, their ids are not read (execution.rs [get_receipts_range]): `C115_order_refuted`.
* The secrets for the operator's servers are sent to any host with "pandaops.io" somewhere in its name, such as `ethpandaops.io.evil.example`, over HTTP too (http_client.rs [get_authorization_headers]): `C115_secrets_refuted`.
* A launch for a snapshot deletes the database (in the directory that trin-execution uses by default too) before it is known whether the snapshot is listed and can be downloaded (portal-bridge bridge/state.rs [launch_snapshot]): `C116_deleted_refuted`.
* Neither the number nor the state root of the header in the file is compared with the snapshot that was asked for or the block of the chain: `C116_number_refuted`, `C116_snapshot_example`.
* If the block hashes cannot be downloaded after an import, every later launch for this snapshot panics, as the position says that it was imported, until the directory is deleted by hand: `C116_stuck_refuted`.
* The light client calls a header final only if two thirds of the committee signed, but it publishes the update if the optimistic header moved, and the head of the chain takes over the final header of every update it is told (beacon network.rs, chain_head/mod.rs [process_update], [process_finality_update]). Just after a start from a checkpoint one signer of 512 suffices; later half of the largest number of signers seen: `C117_minority_refuted`, `C117_minority_example`.
* What the light client accepts in its first sync is published before the task subscribes, and a new reader takes it as seen: the head of the chain stays at its embedded Pectra header until the next update comes: `C117_before_refuted`.
* A published update that is not read yet may be replaced by one of the same kind that attests an earlier slot; the head then stays behind the client: `C117_lost_refuted`, `C117_lost_example`.
* [start] with a checkpoint that is too old replaces the checkpoint by that of the service before it syncs; if that sync fails, the next start trusts the root of the service first (light-client client.rs [boot_from_fallback]): `C118_replaced_refuted`.
* Over the portal network a service that answers makes [start] panic, as [PortalRpc::new] is [unreachable!] (client.rs, portal_rpc.rs:86): `C118_portal_panics_refuted`. trin sets no service.
* A client with a port for its server cannot be started again after a failed start, as it binds its port twice: `C118_port_refuted`.
* [save_checkpoint] empties the file before it writes: a crash loses the earlier checkpoint (database.rs): `C118_torn_refuted`.
* [duration_until_next_update] waits until 8 seconds into the next slot (its comment says 4): if asking takes four seconds or more, a slot is left out: `C118_pace_refuted`.
* With an external address of IPv6 the record of a node has an address of IPv6 and a port of IPv4, so it names no place to send to (discovery.rs:132-136): `C119_ipv6_refuted`.
* With `--external-address` and a gateway that maps ports the record shows the port the node listens on instead of the port that was given (discovery.rs:120-121): `C119_port_refuted`.
* A bootnode that the table of discv5 refuses ends the start of the node (discovery.rs:176-178): `C119_bootnode_refuted`.
* `discv5_getEnr` gives the record of the last session even after `discv5_deleteEnr`, and if the table has a newer one (discovery.rs:297-307): `C119_deleted_refuted`.
* `discv5_lookupEnr` ends at the first node that does not answer, and asks the nodes nearest to the target for distance 256, at which none of their neighbours is (discv5_rpc.rs:74-90): `C119_silent_refuted`, `C119_distance_refuted`.
* The port of the gateway is renewed after half of its lease: one failed renewal leaves a gap (socket.rs:15-19, 105-121): `C119_lease_refuted`.
* [generate_spaced_private_keys] with 128 keys or more puts all ids next to each other (utils.rs:33-38): `C120_even_refuted`.
* `e2ss-stats` passes files that are cut off after an account, since the end of the file is taken for the end of the state, and files with wrong state or storage roots (e2ss.rs:196-205, e2ss-stats.rs:49-109): `C121_cut_refuted`, `C121_roots_refuted`.
* `ProtocolVersion::UnspecifiedVersion(1)` and `V1` are ordered as equal and are not equal (protocol_versions.rs:14, 110-114): `C122_unspecified_refuted`.
* Until the first update of the chain head, the metrics show slot 0 and a lag of 0, however far behind the node is (chain_head.rs:110-135, store.rs:21-32): `C123_lag_refuted`.
* If the clock is set back by more than the rest of a slot between two readings, `get_slot_interval` panics (network.rs:182-190): `C123_ticks_refuted`.
* The gauge of entries of the beacon store grows when a row that is there is stored again, does not shrink when rows are pruned, and starts at 0 in a new process with an old store (storage.rs:284-328, 465-538, 725-744): `C123_entries_refuted`, `C123_entries_restart_refuted`.
* A signature in JSON of a beacon provider that is not 96 bytes long makes the program panic (signature.rs:52-64), and a public key of a wrong length is cut or filled with zeros (pubkey.rs:61-72): `C124_signatures_refuted`, `C124_keys_refuted`.
* A base fee that is an empty text, or underscores alone, is read as 0 (serde.rs:27-38), and transactions of more than 2^30 bytes are cut (serde.rs:40-54): `C124_numbers_refuted`, `C124_transactions_refuted`.
* The light client does not look at the status of the replies of its provider (nimbus_rpc.rs:38-46) and takes any number of updates (nimbus_rpc.rs:58-69): `C125_status_refuted`, `C125_count_refuted`.

* The shortcut for empty tries in the storage of accounts (account_db.rs:31-33, 39, 48) compares with the hash of no bytes, not with the root of the empty trie, so that it is never of use: `C127_empty_refuted`.
* Any peer can add time series to the metrics of a bridge: the name of its client, which it chooses, is part of the labels of the counter of offers (bridge.rs:104-124, client_type.rs:32, 40): `C128_names_refuted`.
* A link with "mainnet-" on a page of era, era1, e2hs or e2ss files that has no number between its first and second dash stops the program instead of giving an error; a directory with a dash in its name is enough (utils.rs:33-50): `C129_panic`, `C129_dash_refuted`.
* A multipart upload that fails is never aborted: the parts that were sent stay in the bucket (s3_bucket.rs:80-112): `C130_left_refuted`.
* An empty file stops the program with a division by zero (s3_bucket.rs:60): `C130_empty_refuted`.
* Names of history files have five digits: from file 100000 on the list of the bucket is no longer in the order of numbers, and the head generator goes on at the wrong file (e2hs.rs:133-137, s3_bucket.rs:132-168): `C131_order_refuted`.
* The download of history files does not look at the status of the answer, so an error page is taken as the file, and does not try again after a failed connection although it does after a broken body (e2hs/utils.rs:47-70): `C132_status_refuted`, `C132_unreached_refuted`.
* The progress report of a state file download divides by the speed since the last report: an empty piece after two seconds, or a huge announced length, makes `Duration::from_secs_f64` panic (e2ss/utils.rs:62-83): `C132_empty_refuted`, `C132_length_refuted`. A failed download leaves a cut file in place of the old one: `C132_old_refuted`.
* The kind of a response is not compared with the kind of the request it answers.

Content store

* Repeated inserts of the same id make the usage counters drift upwards (C12_repeated_insert_refuted); then content that fits is removed and the last batch of a pruning is not reported (C14_unreported_refuted).
* Pruning orders by a four-byte prefix of the distance, so the radius can lie below content that is kept (C15_exact_radius_refuted).
* A database of another node is refused only after it has been pruned (C16_refused_but_pruned_refuted).
* Emptying the table by one oversized entry resets the radius to the maximum.
* Repeated subnetwork names dilute the capacity of all subnetworks.

Lookups and routing table

* The per-peer timeout is not applied while a nearer peer is uncontacted and the lookup is at capacity (C33_peer_timeout_refuted).
* A lookup whose content comes from an unknown peer, or from one without a common version, waits for a verdict that is never sent (C35_no_verdict_refuted).
* `on_failure` is called on the wrong pool, so failed requests are not reported to content lookups; `query_event_poll` never registers a waker.
* More than 127 requested log distances panic (C37_too_many).
* With a limit below the bucket size, connected peers can be missing from a reply (C39_small_limit_refuted).
* Records entered by hand replace newer ones and reset the radius (C54_by_hand_refuted).
* After a failed request a peer can become connected again without being pinged any more (C62_pinged_refuted).
* Gossip offers repeated content twice, mixes the order of mixed batches, and counts skipped peers (C41_*_refuted).

Headers, Merkle trees and the light client

* A header proof that names a slot past the frozen historical roots crashes validation (C22_no_panic_refuted); anyone can send one for the hash of any header that claims the right era (C52_panic_refuted).
* `finalize_deposits(0)` finalizes the first leaf, and finalizing more leaves than were pushed closes the tree (C21 area).
* A bootstrap key is not compared with the header (C65_bootstrap_key_refuted), update periods are not compared with the key (C65_updates_key_refuted); wrong periods stay in the store for good.
* Values of less than four bytes crash the beacon decoder, reachable from validation (C66_short_value_refuted, C66_short_update_refuted).
* A bootstrap accepted while the light client was not synced can become the trust root at the next start (C67_planted_root_refuted).
* A range key makes the store run up to 2^63 queries under its lock (C68_unbounded_refuted).
* Checking and storing take the lock separately, so an older validated update can replace a newer one (C51_served_refuted).
* The light client is stuck until restart once the clock is two periods ahead of it, or one if it does not know the next committee (C69_behind_refuted).
* Right after the bootstrap one signer is enough to set the optimistic header (C70_single_signer_refuted).
* The fork version is chosen by the signature slot, not by the slot before it; the expected slot uses the mainnet genesis for all networks; an invalid public key panics.

State and legacy history

* Offers of state content are not tied to any block, because the header check is switched off (C30_any_node_refuted, C30_any_code_refuted).
* An account whose leaf has no remaining path cannot be proved (C28_empty_leaf_refuted); a proof node that decodes to a bare hash acts as a redirect.
* A body of a block after Shanghai is accepted as canonical with its withdrawals removed (C52_stripped_refuted).
* Bytes after the RLP of a header, of the uncles or of a receipt are accepted, stored and passed on (C52_junk_refuted).
* Headers stored through JSON-RPC are not validated and are then trusted for bodies and receipts (C52_rpc_store_refuted).
* Headers above 2048 bytes, more than 16384 receipts, and bodies with both withdrawals and uncles are encoded without an error and not read back (C77_*_refuted).

Files

* One to five bytes after the last record, a cut inside the first six bytes of a record, or a length field close to 4 GiB make the in-memory e2store reader panic (C47_*_refuted); writing through `TryFrom` panics above 4 GiB (C46_large_refuted).
* The block count in an era1 or e2hs index is not checked: too large panics, too small in e2hs silently drops blocks (C73_count_refuted, C74_count_refuted, C74_count_less_refuted).
* Every era file from before the merge, the empty file and a lone version record make the era reader panic (C75_early_refuted, C75_short_refuted).
* A snapshot cut inside an account record is read as complete (C76_cut_refuted), one cut inside storage panics (C76_cut). The reader does not check how full storage records are, which the writer does (C76_reads_the_file).

## Trusted base

* The kernel of Coq 8.16.1, including its virtual machine (`vm_compute` is used in examples and in finite sweeps), and the standard library.
* Axioms: none. `Print Assumptions` is run in the sources after every property theorem and reports `Closed under the global context` for
  each of the theorems listed above (738 of them). No axiom, parameter, section-less variable or hypothesis is declared, no `Admitted` or `admit` is used,
  no module types, functors or `Declare Module`, and no kernel check is switched off. The checker `coqchk` reports the axioms of
  `Coq.ssr.ssrunder` as present in loaded library files; no theorem here depends on them.
* That the definitions in `*_Model.v` mean what the cited Rust code means. They were written by reading; nothing is extracted or generated from
  the code, and the code was never run. `seeded/LOG.jsonl` records the wrong programs on which the theorems were tried.
* What the definitions assume of code outside /repo, as far as a definition models it: `ethereum_ssz` (`Ssz_Model.v`), `leb128` (`Payload_Model.v`), the routing table
  of `discv5` (`KBucket_Model.v`), SQLite (`Store_Model.v`, `BeaconStore_Model.v`), IEEE-754 (`F64_Model.v`), tokio's semaphore (`Permits_Model.v`). Other crates appear as
  arbitrary functions.
* Hypotheses that theorems put on these arguments are visible in each statement, e.g. that a codec reads back what it wrote (`proper`, `packs`), that hashes have 32 bytes (`len32`).

## What is not modelled

* Code outside /repo: discv5 sessions and its routing table beyond what `KBucket_Model.v` says, uTP streams, SQLite, snappy, RLP and transaction codecs, trie databases, BLS and hash functions, tokio's scheduler.
* Logging, metrics (`crates/metrics`), command line parsing by clap, sockets below the choice of an address (`crates/utils`, `bin/trin`), the JSON-RPC servers (`crates/rpc`) apart from which methods are served where, the replies of the portal_ methods for contents, offers and pings and the eth_ methods for blocks, states and calls.
* The EVM itself (revm), `bin/trin-execution` other than rewards, trie walks, contents, the database, the supply of blocks, snapshots and the execution of blocks, `bin/portal-bridge` other than its arguments, its census, the contents and runs of the state bridge, the bridge from history files, the bridge at the head of the chain and the beacon bridge, `crates/ethereum-rpc-client` below HTTP (redirections, time-outs, the text of JSON).
* Serde (JSON) representations of the types.
* Failures of the disk and the database, except where a definition mentions them.
* The migration of old databases.
