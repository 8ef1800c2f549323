# Formal model of snapchain: design

Source: `/repo` (farcasterxyz/snapchain, Rust), read as text.  Model and proofs: Rocq/Coq 8.16.1 in
`/verif/rocq/theories`.  Every model definition carries a comment with the file and lines it models and says what
was simplified.  `properties.jsonl` holds the properties, `MANIFEST.json` maps each to its theorems and says what is
missing or false, `seeded/LOG.jsonl` records the deliberately wrong models the theorems were tried against.

## Conventions

* A byte is an `N`, a byte string is a `list N`; well-formedness (`< 256`) is a boolean hypothesis where it matters.
* Unbounded `N`/`Z`/`nat` are used for integers unless the width is observable; where the Rust code can wrap (release
  build: `Cargo.toml` has no `[profile]`) the model writes `mod 2^32` / `mod 2^64` explicitly.
* A `Result` is an explicit error value; a panic is an explicit `Panic` value.
* RocksDB is a finite map from byte strings to values, a transaction batch is a finite map to optional values, a commit
  is the atomic application of the batch.  Point reads see the batch first; range scans see the committed map only, as
  in the code.
* Cryptography (blake3, keccak, Ed25519, EIP-712 recovery), protobuf and other libraries are Section variables or fields
  of an environment record: theorems hold for every such function.  Collision resistance is never assumed: binding
  results are reductions that exhibit a collision.
* A `HashMap`/`HashSet` iteration is an arbitrary order given by an oracle; theorems quantify over it.
* A property that is false for the code as it is gets a theorem `..._refuted` with a concrete witness, next to the
  strongest variant that is true; its manifest status is `partial`.  A theorem that lacks a part ends in `_partial`.
* `Prop*.v` hold the property theorems (short proofs from lemmas), Examples that meet their hypotheses, and
  `Print Assumptions`.  Specifications used in statements are in these files or in `*Spec.v`, separate from the model.

## Layers

| layer | model files | proof files | property files | code |
|---|---|---|---|---|
| bytes, maps | `Base`, `Kv`, `AMap` | same | `PropPaging` (C11) | `storage/db/rocksdb.rs` (transactions), `HashMap<u8,_>` |
| codecs | `Codec` | `CodecProofs` | `PropCodec` (C01-C04) | `account/{event,message}.rs`, `util.rs`, `trie` keys, page tokens |
| trie | `Trie`, `TrieSpec` | `TrieRep`, `TrieIns`, `TrieDel`, `TrieTop`, `TrieHash`, `TrieRun` | `PropTrie` (C05-C10) | `storage/trie/{trie_node,merkle_trie}.rs` |
| versions | `Version` | - | `PropVersion` (C49) | `version/version.rs`, `core/util.rs` (FarcasterTime) |
| mempool | `Mempool`, `RateLimit` | `MempoolProofs`, `RateLimitProofs` | `PropMempool` (C40, C42, C52), `PropRateLimit` (C41) | `mempool/{mempool,routing}.rs` |
| gasless keys | `Gasless` | `GaslessProofs` | `PropGasless` (C27-C30, C53) | `account/{gasless_key_merge,key_add_store,key_nonce_store,key_last_used_at_store,active_key}.rs` |
| channels | `Channel`, `ChannelUri` | `ChannelProofs`, `ChannelUriProofs` | `PropChannel` (C31-C33, C54), `PropChannelUri` (C50) | `block_engine.rs` 150-265, 707-900, `account/channel_store.rs`, `core/channel_uri.rs` |
| message stores | `Store`, `StoreSpec` | `StoreProofs`, `StoreDefs`, `StoreTop` | `PropStore` (C13-C20, C55, C56) | `account/{store,cast_store,link_store,reaction_store,user_data_store,verification_store,storage_lend_store}.rs` |
| scans, blocks | `Paging` | `PagingProofs`, `BlockStoreProofs` | `PropPaging` (C12, C57) | `storage/db/rocksdb.rs` (scans), `store/{block,shard}.rs`, listing functions |
| storage units | `Storage` | `StorageProofs` | `PropStorage` (C23-C25, C59) | `account/{onchain_event_store,storage_lend_store}.rs`, `stores.rs`, `block_engine.rs` (lending) |
| on-chain events | `OnChain` | `OnChainProofs` | `PropOnChain` (C26, C58, C60, C61) | `account/onchain_event_store.rs` |
| names | `Names` | `NamesProofs` | `PropNames` (C21, C22, C62) | `account/{username_proof_store,name_registry_events,user_data_store}.rs`, `engine.rs` |
| quota | `VerifQuota` | `VerifQuotaProofs` | `PropVerifQuota` (C34) | `block_engine.rs` (quota) |
| data-shard engine | `Engine` | `EngineProofs`, `EngineSeq` | `PropEngine`, `PropEngineIds` (C35-C39) | `engine.rs` 306-597, 1225-1685, 2342-2481, 2599-2731 |
| block shard | `ShardZero` | `ShardZeroProofs` | `PropShardZero` (C35-C39) | `block_engine.rs` 1420-2277, `account/block_event_store.rs`, `proposer.rs` 484-690, `mempool/block_receiver.rs` |
| consensus | `Consensus` | `ConsensusProofs` | `PropConsensus` (C43-C47) | `consensus/{validator,read_validator,proposer}.rs`, `core/{types,util}.rs` |
| trie listing | `TrieScan` | `TrieScanProofs` | `PropTrieScan` (C07, C67) | `trie_node.rs` 236-257, 664-691, `merkle_trie.rs` 449-675 |
| transactions | `Txn`, `TxnSpec` | `TxnProofs` | `PropTxn` (C68) | `db/rocksdb.rs` 348-439; the locking of RocksDB's TransactionDB is modelled from its documentation (trusted) |
| migrations | `Migrate`, `MigrateSpec` | `MigrateProofs`, `MigrateInv`, `MigrateLookup` | `PropMigrate` (C69-C71) | `store/migrations/{mod,m2_verification_by_address_index}.rs`, `onchain_event_store.rs` (FIDIterator), `verification_store.rs` 320-440, `block_engine.rs` 416-451; m1 is any sequence of batches on its own prefix; a live batch is any batch with the conditions `live_ok` (it treats the index entry as the primary entry), shown for the batches of verification merges by `live_pair` |
| bootstrap | `Bootstrap` | `BootstrapProofs` | `PropBootstrap` (C72) | `bootstrap/replication/service.rs` 861-1013, `engine.rs` 599-663, `account/store.rs` (conflict-free merges), `name_registry_events.rs` |
| bootstrap client | `BootClient` | `BootClientProofs` | `PropBootClient` (C73) | `service.rs` 843-1220, `engine.rs` 599-663, `merkle_trie.rs` 32-190; an on-chain event's type is that of its body |
| bootstrap tasks | `BootSched` | - | `PropBootSched` (C74) | `service.rs` 216-236, 565-830; node rows abstracted to the keys they commit to |
| event log | `EventLog` | `EventLogProofs` | `PropEventLog` (C75) | `store.rs` (events returned), `merkle_trie.rs` 32-50, 138-246; event ids and failure events left out |
| events API | `EventApi` | `EventApiProofs` | `PropEventApi` (C76) | `network/server.rs` 1374-1454, 1874-2004, 2040-2106; JSON form of tokens, hang-ups and concurrent pruning left out |
| pruning jobs | `PropEventPrune` | `PropEventPrune`, `BlockStoreProofs` | `PropEventPrune` (C77) | `jobs/event_pruning.rs`, `jobs/block_pruning.rs`, `stores.rs` 684-823; prune lock and throttling left out |
| connectors | `Connector` | `ConnectorProofs` | `PropConnector` (C78, C79) | `connectors/onchain_events/mod.rs` 640-846, 1199-1459 and `connectors/fname/mod.rs` 233-425; decoding of logs and transfers, waiting times and chain reorganisations left out; the chain node answers a range with its logs |
| replicator | `Replicator` | – | `PropReplicator` (C80, C81) | `network/replication/{replicator,replication_stores}.rs` and the commit side of it in `store/engine.rs` 2561-2598; snapshot contents are lists of messages and events (their encoding left out), opening a read-only database shows the last committed block, waiting 200 ms is "handled before the next commit, or not" |
| consensus wire | `Wire`, `ConsensusWire` | `WireProofs`, `ConsensusWireProofs` | `PropConsensusWire` (C82-C84) | the protobuf wire format as prost reads and writes it (`Wire`, from its documented behaviour; no groups), `snapchain_codec.rs`, `core/types.rs` 362-486 and 695-758, `gossip.rs` 1152-1309 and 1344-1456, `network_connector.rs` 185-330; blocks, chunks, mempool messages and contact infos inside an envelope are opaque oracles |
| database snapshots | `DbSnapshot` | `DbSnapshotProofs` | `PropDbSnapshot` (C85-C87) | `multi_chunk_writer.rs`, `backup.rs`, the bucket operations of `snapshot.rs` (upload, listing by prefix, clearing, download) and the guard of `snapshot_upload.rs`; gzip and tar are functions given by the caller with the inverse law as a hypothesis, retries and HTTP are not modelled, the metadata file is its three fields, the public download address is a second copy of the bucket that may be older |
| start-up | `Startup` | `StartupProofs` | `PropStartup` (C88) | `main.rs` 339-440 with the bootstrap by replication and the snapshot download as the sequences of changes they make to the database directory; what the network delivers is an argument; RocksDB's own files are opaque and written once |
| validation | `Regex`, `Validate` | `ValidateProofs` | `PropValidate` (C48, C51, C63-C66) | `core/validations/*.rs`, `account/message.rs` 321-352, `engine.rs` 2035-2215 |
| local state | `LocalState` | `LocalStateProofs` | `PropLocalState` (C89, C90, C91) | `node_local_state.rs` (keys, puts, deletes, reads) and the use of stored proposals in `validator.rs` 198-325 and `host.rs` 92-131, 214-253; engine and proposers are those of `Consensus`; proposal encoding is a round-tripping pair of functions; failures of the database are inputs; a published proposal is not delivered back |
| cross-shard reads | `FanOut` | `FanOutProofs` | `PropFanOut` (C92, C93, C94) | `server.rs` 161-312, 498-640, 1056-1072, 2380-2660, 3298-3375, 3555-3632 and `get_signers`; a store is a function from page options to a page, with the listings of `Paging` for the stores; the JSON of tokens is a round-tripping pair of functions; contents do not change while a client pages; conversion of rows to responses is not modelled |
| background jobs | `Jobs` | `JobsProofs` | `PropJobs` (C95, C96) | `migrations/m1_fix_fname_index.rs` on the name tables of `Names` (the accounts visited are an input, see C69; the trie's listing is sorted and may be cut as in C13), `jobs/migrate_onchain_events.rs` on the listing of `Paging`; the trial merge into shard 0 is a verdict given with each pass; waiting for the mempool, and what the mempool does with the events, are not modelled |
| Read-node sync | `ReadSync` | `ReadSyncProofs` | `PropReadSync` (C97) | read_sync.rs message handler, read_host.rs, collection of announcements in main.rs; the sync library's reactions (new sync height, requests to send) are an oracle per message; assumed of it: peers' statuses change by status inputs only, `random_peer_with_value` is a range check |
| Inbound gossip, connections, sweep | `Inbound` | `InboundProofs` | `PropInbound` (C98, C99) | gossip.rs mapping of gossip messages, contact information, connection events, self-heal sweep; dispatch in both node kinds; payloads are numbers, the set of connected peers is fixed during one run of the contact theorems; metrics left out |
| Message submission | `Submit` | `SubmitProofs` | `PropSubmit` (C100, C101, C102) | submit_message_internal, recovery of missing names, chain checks, hand-over to the mempool, bulk submission. The engine's trial run, the registry, chains and the channel are the environment; messages are their decoded data; error texts, telemetry and `message_bytes_decode` not modelled; a replay that fails as a whole in bulk simulation is not modelled; hash map orders are arbitrary parameters |
| Reading names | `NameReads` | (in `PropNameReads`) | `PropNameReads` (C103) | get_username_proof and get_user_name_proofs_by_fid over shards built from histories (stores of `Names`); every message in its own block; paging replaced by the whole listing |
| Credentials | `Auth` | `AuthProofs` | `PropAuth` (C104) | parse_auth, authenticate_request, which calls check what, debug submissions. Base64/UTF-8 decoding is an oracle; constant-time comparison, TLS and the HTTP server's header mapping not modelled |
| Network picture | `Mesh` | `MeshProofs` | `PropMesh` (C105, C106, C107) | classify_mesh_view, crawl_mesh, the node registry, resolve_http_api_url. Peer ids are their bytes with a validity oracle; facts no function looks at are one field; the response cache (moka), rates, rendering and multiaddr parsing not modelled; the crawl's waiting is the reply oracle |
| Chain questions | `Extern` | in `PropExtern` | `PropExtern` (C108, C109) | verify_signature with its ABI encoding, the claim check around it, namehash, resolve_ens_name. The chain is a pair of functions (code, call); typed-data hashing and keccak are oracles, the helper bytecode a parameter; timeouts not modelled |
| Bootstrap peers and pages | `Discovery` | `DiscoveryProofs` | `PropDiscovery` (C110, C111, C112, C113) | handle_contact_info, add_new_peer (two critical sections, arbitrary interleaving), get_peer_for_vts (nothing else happens while it connects), new, close, the page cache and retries (a page fetched ahead is computed when it is asked for), the replication server's answers, reconcile_heartbeat_events. PeerId parsing is the caller's; statistics and request time limits not modelled |
| HTTP API | `Http` | `HttpProofs` | `PropHttp` (C114, C115, C116) | message, page, bulk and event mapping to JSON, page tokens (base64, plus/space), the three hash readers, UTF-8 check, route table, statuses, header forwarding, mesh query, parse_topics. JSON values are records before serialisation (serde not modelled); base58 is a parameter; error texts, CORS and the HTML page not modelled; on-chain event mapping always succeeds and is not modelled |
| Chain logs | `ChainLog` | in `PropChainLog` | `PropChainLog` (C117, C118, C119) | process_log with every arm, get_block_timestamp, the event built by add_onchain_event, retry_filters, contracts, resolve_channel_registrar_token and its use in run. A log carries its decoded event (ABI decoding is a flag; topic 0 is the constructor, shared by contracts with equal signatures); the ABI files are transcribed as `emits`; statistics not modelled |
| Gasless keys across shards | `KeyShards` | `KeyShardsProofs` | `PropKeyShards` (C120, C121) | shard 0 and one data shard, each with the key stores of Gasless.v: admission on shard 0, block events replayed in order, uses routed by type, key messages put directly into a data shard's block; resolve_signer, signer_from_gasless_record and the counters of get_signers_by_fid. On-chain signers by block time only; ordered delivery of block events is C38; paging of signers not modelled here |
| Block receiver's waiting | `Confirm` | in `PropConfirm` | `PropConfirm` (C122) | wait_for_confirmation, confirmed_in_store, sync_missing_block_events with batches, ensure_events_confirmed, run with the bounded channel. Time and the store are a list of arbitrary looks (reading, deadline passed, what woke the loop); sending to the mempool never fails; logging and counters not modelled except that a gap is reported |
| Channel ownership reads | `ChannelReads` | `ChannelReadsProofs` | `PropChannelReads` (C123) | get_channel_owner, get_channels_by_address, get_channels_by_fid, require_registered_channel and the hint scan, over the tables of `OnChain` laid out as rows of one database with arbitrary other rows. The account an address resolves to is an arbitrary function (`Migrate` models it); the verifications of the account are a list (paging of them is C12); database failures and the version gate of hints not modelled |
| Address reads | `AddrReads` | — | `PropAddrReads` (C124) | get_id_registry_on_chain_event, ..._by_address with its cache (any entry may be dropped at any time), get_fid_address_type, over one `OnChain` state per shard. Pages of the event scan joined (C12); verified addresses a set (`Store` models the table); database failures not modelled |
| Node reads | `NodeReads` | — | `PropNodeReads` (C125) | get_blocks (pages of 100, a client that leaves after any number of blocks), get_shard_chunks, get_info (delays with checked or wrapping subtraction; sizes, version and peer id left out; sums unbounded), get_fids, over the stores of `Paging` and `OnChain` |
| Parent chain | `ParentChain` | — | `PropParentChain` (C126) | the parent hash and hash field built by both proposers, what the two add_proposed_value look at, the last stored block; blake3 of the header is any function, the validation of all other fields is any function of the store, the height and those fields |
| Channel state reads | `ChanStateReads` | — | `PropChanStateReads` (C127) | the six channel state handlers over the state of `Channel` and the page scan of `Paging`; errors are not told apart, registration is any predicate, an index is the map of its own rows, texts of a settings message are opaque |
| Channel follows | `ChannelFollow` | — | `PropChannelFollow` (C128) | the follow rows written and removed with reaction adds, the four reads; of the reaction store only the stored adds by key, whether a merge is accepted and whether follows are switched on at it are any booleans; spelling of a channel from `ChannelUri`, pages from `Paging` |
| Trie metadata | `TrieMeta` | — | `PropTrieMeta` (C129) | the metadata of a trie node and its children as read from the database by the handler; order of the children, hex spelling and choice of the shard left out |

## Properties: what is modelled and how it is proved

| id | model and proof |
|---|---|
| C01 | id packing `height*2^14+seq` with range checks; arithmetic; big-endian byte order lemma |
| C02 | key builders as byte strings; injectivity by fixed widths; prefix-range lemma; order lemma |
| C03 | trie key builders and `decode`; round trip and injectivity; nibble round trip |
| C04 | token codec; round trip by induction |
| C05 | tree model with insert/delete/exists; refinement to a set of keys by induction over operations |
| C06 | root hash as a function of the key set; every reachable tree represents its set |
| C07 | counts by induction on the tree; listing: the in-order walk is the sorted list of keys |
| C08 | tree with loaded/serialized children plus node database; reload after commit |
| C09 | reduction: equal roots and different sets yield a hash collision |
| C10 | batch insert with result vector; refutation plus correct count |
| C11 | overlay map; algebra |
| C12 | paging loop over a sorted list; induction on the number of remaining rows |
| C13-C17 | generic store parametrised by a definition; refinement to slot-wise maximum; invariant over histories |
| C18 | compact-state merge on a committed store; exact characterization |
| C19, C20 | prune and revoke loops; exact effect on committed state; refutation with pending writes |
| C21, C22, C62 | name maps with committed state and view; invariants; refutations |
| C23-C25, C59 | slots with `mod 2^32`, cohorts, loans; conservation without expiry, refutation with expiry |
| C26, C58, C60, C61 | event merges; order independence under distinct blocks, refutations within a block |
| C27-C30, C53 | state machine of key records, owner index, nonces, counters, last use; invariant by induction |
| C31-C33, C54 | authority table and slot store; invariants over traces, refinement to last-writer map |
| C34 | quota state machine; invariant |
| C35-C39 | engine as a state machine over committed state, working trie, cache and event ids, per-message effects a parameter; invariants over chains; crash between two writes; the same for shard 0 |
| C40, C52 | ordered map with key derivation; invariant; refutation of key injectivity |
| C41 | token buckets with idle eviction; refutation, and bound without eviction |
| C42 | arithmetic on the hash prefix |
| C43 | consuming iterator; soundness, refutation of completeness for reordered signatures |
| C44 | read-node state machine; in-order theorem; refutation of certificate binding |
| C45 | proposal table; refutation and the part that holds |
| C46 | selection function; specification, rotation arithmetic |
| C47 | witness collection; invariant |
| C48 | envelope with encoded and decoded data; theorem with normalisation, universal forgery without |
| C49 | schedule tables; monotonicity for all times |
| C50 | parser/printer; round trip both ways; grammar |
| C51, C63-C66 | validators as boolean functions; exact characterizations, version monotonicity; regular expressions by derivatives with a language semantics |
| C67 | the page iteration as a sequence of small steps, cut at any point and resumed from the encoded stack |
| C68 | interleaving of lock-taking programs; equality with a serial execution, progress under ascending lock order, a deadlock without it |
| C69, C70 | the migration as a state machine interleaved with live batches, crashes and restarts; inductive invariant, termination measure |
| C71 | scan with overlay, maximum; specification |
| C72 | replay of a snapshot as conflict-free merges; rebuilds the store iff no stored link is superseded; refutations for links, names, signers |
| C73 | pages from arbitrary peers as a fold; invariants for listing, backing and authenticity; simulation theorems for forged content and events |
| C74 | two-phase tasks over shared trie rows; soundness when writes follow additions, universal failures otherwise |
| C75 | log next to the store model; invariant rows = replay of events, independent of the scan conditions of C17 |
| C76 | page sequence of each shard as a cycle of its C12 pages; subscription as an interleaving of commits, sends, pages, attachments and receives with an exact description of what was delivered |
| C77 | chunk part of a history is a C57 history; the event job is C12_prune_events at the height C57 finds; removed chunks never come back |
| C78 | invariant over histories: everything below the recorded block and below the live cursors was sent; stop block, lost logs and giving up as universal failure theorems |
| C79 | invariant over histories with an honest server: everything up to the position and the recorded id was sent; default start as a universal failure theorem |
| C80 | invariant over all interleavings: queue entries of a shard carry its committed height while the engine waits; the slow case as a universal failure theorem |
| C81 | key decoding (C40) and listings agree for every stored item; walk from the paging theorem of C67; cache accounting invariant "counted = held + drift"; blocked virtual shards as a universal failure theorem |
| C82 | wire-format round trip (fields written are read back), lifted message by message; the re-encoding inside the node through "what was read is in range" |
| C83 | injectivity by decoding; kinds told apart by field numbers and wire types |
| C84 | exact characterisation of the panicking inputs (refuted: they exist), with concrete bytes |
| C85 | induction on the buffers (greedy packing), exact restored stream for every listing order (refuted: the order of `read_dir` is kept), the right order and the order by name as positive cases |
| C86 | bucket invariant; key arithmetic on slash-separated parts; universal failure for shards whose decimal begins with the cleared shard's, and for stale metadata (refuted) |
| C87 | exact guard, exclusion for paced uploads by induction on the events, universal failures without pacing |
| C88 | changes to the disk as a list cut at any point; universal failure for every interior cut (refuted), exact results for clear and force |
| C55, C56 | corollaries of the store refinement; replay refutation |
| C57 | block and index rows; lookup by time, pruning |
| C89 | step invariant: the disk holds the value under its key; key injectivity; a storage error breaks it (refuted) |
| C90 | universal failure after a restart: the stored value is proposed for ever and never found (refuted); within a process the value stays known |
| C91 | injectivity of the keys, refinement of the byte map to one value per key; prefix scan of a height; shards cut to a byte (refuted) |
| C92 | cyclic traces of tokens: the page of request j is page j modulo the shard's page count; endless (refuted), repeated by the least common multiple (refuted), equal page counts exactly once |
| C93 | three-state cursors as a trace; number of requests is the maximum of the page counts; permutation of all rows; token validation by counting |
| C94 | two-stage listing by induction on the remaining rows; permutation without a page size; page size zero endless (refuted), one entry per key (refuted) |
| C95 | m1 as a step function; a fold over accounts equals the finished run; exact rows after a run, from which restarts follow; invariant over interleavings without merges inside an account; universal failure for renewals, witness for the race |
| C96 | a pass as page + offers + token write; invariants on (token, log) over arbitrary sequences of passes; counting argument for repeats; exact log for smooth runs |
| C97 | run invariants over all oracles; exact characterisation of the actor's death; refutations: pruned peer, no answer, leak, pruning race, subset of shards |
| C98 | per-shard stream equality; exact characterisation of messages that stop the node; refutations: malformed gossip, spoofed contact |
| C99 | simulation of the connection set; origin of first-connect times; spacing by induction; refutation with two connections |
| C100, C101 | case analysis of the submission against independent conditions; polling by induction on the number of trial runs; counter-examples for lost answers and stale transfers |
| C102 | permutation of the shard groups; simulation relation `separate` between batches seen by different accounts; counter-examples built on the name store of C21 |
| C103 | order-independence of `find_map` as an iff; C21/C22 lifted to several shards; concrete two-shard counter-examples |
| C104 | split/join inverse lemmas, inversion of `split_whitespace`; universal counter-examples for passwords with colons |
| C105 | counting entries per peer over NoDup lists; universal counter-examples for untaken requests and claimed identities; a 257-validator witness for the limit |
| C106 | invariant `whole` (both indices agree) preserved by replacement under `agrees`; soundness invariant of both indices |
| C107 | octet and bit tests proved equal to CIDR blocks over all 32- and 128-bit addresses |
| C108 | case analysis both ways; injectivity of the ABI encoding from fixed-length parts; witnesses over all chains/signatures |
| C109 | fold over reversed labels = recursion; binding by induction, `or broken` instead of injectivity |
| C110 | trace invariants over arbitrary event lists (tasks keep their peer and address; addresses have a confirming answer) |
| C111 | last key of a map by `map_fold_ind`; keyed and gapless stores |
| C112 | Forall2 characterisation; maximum by fold invariant |
| C113 | cache invariant: rows are answers to their keys; equality with the cache-free program for stationary peers |
| C114 | exact characterisation of the mapping's domain in numeric ranges; inversion of the mapping up to a base58 collision; Forall2/Exists for pages and events |
| C115 | canonical base64 by blocks of three; undoing plus/space pointwise; case folding of hex digits |
| C116 | iff over the whole request; table lookup against membership; fold over query pairs = last/any of the values of a key |
| C117 | iff over the arms; injectivity from an inversion of the arms and of `be 32`; composition with the store of OnChain.v |
| C118 | event type per contract by cases over the ABI table; key injectivity; NoDup by induction; composition with C60 |
| C119 | cases over configuration; filters against the account of an event |
| C120 | simulation: the data shard's stores against a fold of the taken block events over shard 0's step, restricted to the shard's accounts; concrete runs for the refuted parts |
| C121 | invariant (records carry a positive ttl and a record of use), then equality of the decision with the told fields |
| C122 | the looks are split at the deciding one; refinement of the receiver without waiting (C38) by induction on the loop; universal counterexample for batches |
| C123 | the scans are shown equal to C12's on the rows of the index, then C12's listing theorems and C58's table invariant are composed; universal statements for any token |
| C124 | invariant: each cached event is stored and names the address it is cached under; witnesses for stale, changing and removed answers |
| C125 | the rows of a range are read off the block store invariant of C57 and composed with the paging theorem C12; the account total by counting the rows of the custody index |
| C126 | invariant: the numbers stored are 1 to the last; backwards induction along the parent hashes, ending in equal headers or a collision |
| C127 | the slot invariant of C33 turned into rows of each index, then the page theorem of C12 with an order on the decoded entries |
| C128 | invariant between the rows and the last word on each reaction key read off the history; spelling is injective (C50); pages by C12 |
| C129 | representation invariant of the trie (C05) walked down to the stored node; counts and hashes by C07's lookup on the reloaded state |

## Trusted base

* The Coq 8.16.1 kernel, including `vm_compute` for concrete witnesses.
* Axioms: `Print Assumptions` says "Closed under the global context" for every theorem printed in the `Prop*.v` files.
  The libraries loaded by std++ (ssreflect's `Coq.ssr.ssrunder.Under_rel`) declare parameters that `coqchk` reports when
  it lists the whole environment; no theorem depends on them.  No axiom, functor, module type or admitted proof is
  declared here, and no kernel check is switched off.
* The correspondence between the Rust text and the definitions, documented by the comments.  Library code (standard
  library, alloy, ruint, governor, moka, regex crates, bs58, prost) is modelled from its documentation or left as an
  arbitrary function.

## Not modelled

* Protobuf wire encoding (an arbitrary pair of functions), networking and gossip transport, the malachite consensus
  engine below the `Proposer`/`ShardValidator` interface, RPC/HTTP servers, connectors to L1/L2 chains, the
  serving side of replication, snapshot upload and download, background jobs other than migrations,
  metrics, logging, configuration parsing.
* RocksDB internals: a batch is atomic, iterators see a snapshot of the committed state, I/O errors do not occur.
* Concurrency beyond the interleavings stated in each model (each engine, mempool and store is driven by one thread in
  the code).
* In the engine models the effect of a message on the stores is a parameter; the store models are connected to it by
  the conditions of the theorems (for example `faithful` in C39), not by one combined model.
* Error codes where only acceptance matters.
