{"id": "C01", "title": "Event ids are unique and ordered like the chain", "statement": "The id attached to every hub event determines the block height and the position inside the block, two different (height, position) pairs never share an id, ids grow with (height, position), and the order in which the event feed iterates over stored events is exactly id order.", "quantifier": "every block height below 2^50 and every per-block sequence below 2^14, every pair of events", "why_tests_cant": "2^64 pairs of events; the boundary between the two bit fields can only be covered by an argument over all values", "anchors": ["src/storage/store/account/event.rs: HubEventIdGenerator, HubEvent::make_event_key, StoreEventHandler::commit_transaction"]}
{"id": "C02", "title": "Database keys of different objects never collide and order like their contents", "statement": "A stored message is addressed by account, set and (timestamp, hash): two different addresses never map to the same database key, no key of one account or of one set falls inside the range scanned for another account or set, and scanning a set returns messages in timestamp-then-hash order.", "quantifier": "all 32-bit fids, all set numbers, all timestamps and 20-byte hashes", "why_tests_cant": "collision freedom quantifies over all pairs of keys", "anchors": ["src/storage/store/account/message.rs: make_user_key, make_message_primary_key, make_ts_hash, make_fid_key", "src/storage/constants.rs: RootPrefix, UserPostfix", "src/storage/util.rs: increment_vec_u8"]}
{"id": "C03", "title": "Sync-trie keys identify exactly one item", "statement": "The trie key of a message, on-chain event or name transfer determines the account, the item kind and the item's unique part; distinct items get distinct keys; decoding a key returns what was encoded; and splitting into nibbles loses nothing.", "quantifier": "all fids, item kinds, hashes, names of up to 20 bytes and log indexes", "why_tests_cant": "injectivity over unbounded key space", "anchors": ["src/storage/trie/merkle_trie.rs: TrieKey::for_message_type, for_onchain_event, for_fname, decode", "src/storage/trie/util.rs: expand_nibbles, combine_nibbles"]}
{"id": "C04", "title": "Page tokens round-trip", "statement": "The opaque page token handed to a client that lists trie contents decodes back to the position it was produced from, whatever the position is.", "quantifier": "every position (list of byte strings) and every byte string presented as token", "why_tests_cant": "all token values", "anchors": ["src/storage/trie/util.rs: encode_trie_page_token, decode_trie_page_token"]}
{"id": "C05", "title": "Trie membership equals the history of inserts and deletes", "statement": "After any sequence of single inserts and deletes of well-formed keys, a key is reported as present iff it was inserted and not deleted afterwards, and each call reports whether it changed the set.", "quantifier": "every finite sequence of inserts and deletes, every key of at least 12 nibbles and equal length classes", "why_tests_cant": "splits and compactions depend on the whole history of the tree", "anchors": ["src/storage/trie/trie_node.rs: insert, delete, exists, split_leaf_node", "src/storage/trie/merkle_trie.rs: MerkleTrie::insert, delete, exists"]}
{"id": "C06", "title": "Trie root depends only on the set of keys", "statement": "Two nodes that hold the same set of keys have the same root hash regardless of the order of the operations that led there (this is what makes state roots comparable between validators).", "quantifier": "every pair of operation sequences ending in the same key set", "why_tests_cant": "needs canonical form of the tree for all histories", "anchors": ["src/storage/trie/trie_node.rs: insert, delete, update_hash, hash"]}
{"id": "C07", "title": "Per-prefix counts and hashes are exact", "statement": "The number of items reported for a prefix is the number of stored keys that start with it, and the values listed under a prefix are exactly these keys, each once.", "quantifier": "every reachable trie and prefix", "why_tests_cant": "all tree shapes", "anchors": ["src/storage/trie/trie_node.rs: items, get_all_values, get_node_from_trie", "src/storage/trie/merkle_trie.rs: get_count, get_hash, get_all_values"]}
{"id": "C08", "title": "Reloading the trie from disk changes nothing observable", "statement": "Dropping the in-memory tree and reading it back from the committed database (done after every commit and at start) leaves membership, counts and root unchanged.", "quantifier": "every history of transactions, commits, rollbacks and reloads", "why_tests_cant": "depends on which nodes happen to be persisted and which disk keys are deleted over the whole history", "anchors": ["src/storage/trie/trie_node.rs: put_to_txn, delete_to_txn, get_or_load_child, delete (compaction branch)", "src/storage/trie/merkle_trie.rs: reload, load_root"]}
{"id": "C09", "title": "Equal roots imply equal sets", "statement": "If two tries report the same root hash, then they hold the same keys, or an explicit pair of different byte strings with the same 160-bit hash has been exhibited.", "quantifier": "all pairs of tries", "why_tests_cant": "cryptographic binding can only be argued by reduction", "anchors": ["src/storage/trie/trie_node.rs: hash, update_hash"]}
{"id": "C10", "title": "Batch insert tells the caller which keys were new", "statement": "When several keys are inserted in one call, the i-th flag of the answer is true iff the i-th key was not present before.", "quantifier": "every batch and starting trie", "why_tests_cant": "depends on all batch contents and tree shapes", "anchors": ["src/storage/trie/trie_node.rs: insert"]}
{"id": "C11", "title": "Uncommitted writes are visible to their own transaction and commit atomically", "statement": "A read through a transaction returns the last value written (or deleted) in it and otherwise the committed value; committing produces exactly the state the transaction saw, and dropping it leaves the database unchanged.", "quantifier": "every sequence of puts/deletes and every key", "why_tests_cant": "all operation sequences", "anchors": ["src/storage/db/rocksdb.rs: RocksDbTransactionBatch, commit", "src/storage/store/account/message.rs: get_from_db_or_txn"]}
{"id": "C12", "title": "Paging through a listing returns every row exactly once", "statement": "Following next-page tokens until none is returned yields each row of the listed range exactly once and in order (forward or reverse), for every page size.", "quantifier": "every database content, range, page size >= 1 and direction", "why_tests_cant": "rows at page boundaries and token successors for all data", "anchors": ["src/storage/db/rocksdb.rs: get_iterator_options, for_each_iterator_by_prefix_paged", "src/storage/store/account/message.rs: get_messages_page_by_prefix", "src/storage/store/shard.rs: get_shard_page_by_prefix"]}
{"id": "C13", "title": "Replicas converge", "statement": "For links, reactions, user data and verifications, two nodes that merged the same set of valid messages without quota evictions, in any order and with any duplicates, show the same live messages and the same tombstones.", "quantifier": "every finite set of messages and all permutations with repetitions", "why_tests_cant": "factorially many orders", "anchors": ["src/storage/store/account/store.rs: Store::merge, get_merge_conflicts, message_compare, merge_add, merge_remove"]}
{"id": "C14", "title": "The winning message of a slot is the greatest one", "statement": "At any time the message held for a slot (e.g. account+link type+target) is the maximum, by (timestamp, removal over addition, hash), of all messages merged for it; at most one of addition or tombstone is present; a refused merge leaves the state untouched.", "quantifier": "every history of merges", "why_tests_cant": "unbounded histories", "anchors": ["src/storage/store/account/store.rs: message_compare, get_merge_conflicts, merge_add, merge_remove"]}
{"id": "C15", "title": "A removed cast never comes back", "statement": "Once a removal of a cast is stored, merging the cast (again) in any order never makes it live; two replicas receiving the same casts and removals in different orders agree on the set of live casts.", "quantifier": "every history of cast adds and removes", "why_tests_cant": "unbounded orders", "anchors": ["src/storage/store/account/cast_store.rs: get_merge_conflicts"]}
{"id": "C16", "title": "Merging the same message twice is harmless", "statement": "Re-submitting a message that is currently stored is refused as a duplicate and changes nothing.", "quantifier": "every reachable store and stored message", "why_tests_cant": "all reachable states", "anchors": ["src/storage/store/account/store.rs: get_merge_conflicts, merge"]}
{"id": "C17", "title": "Lookup indexes agree with the stored messages", "statement": "A message found through the by-slot index is stored under its own address and is the message of that slot; every stored message is reachable through its slot; no index entry dangles.", "quantifier": "every history of merges, removals, prunes and revocations applied to committed state", "why_tests_cant": "consistency of several keys over all histories", "anchors": ["src/storage/store/account/store.rs: put_add_transaction, put_remove_transaction, delete_add_transaction, delete_remove_transaction, get_add, get_remove"]}
{"id": "C18", "title": "A link compact state replaces what it covers and nothing else", "statement": "After a compact-state message for a link type is accepted, links of that type with a timestamp at or before it remain only if their target is listed, links with a newer timestamp and links of other types are untouched; later merges that contradict the compact state are refused; an older compact state cannot displace a newer one.", "quantifier": "every committed link set, compact state and later message", "why_tests_cant": "interaction over all link sets", "anchors": ["src/storage/store/account/store.rs: merge_compact_state, merge_add, merge_remove", "src/storage/store/account/link_store.rs"]}
{"id": "C19", "title": "Quota enforcement evicts the oldest and ends within the limit", "statement": "Pruning an account's set brings the number of stored messages down to the account's limit, evicting only oldest-first, and does nothing when within the limit.", "quantifier": "every set size, limit and history inside a block", "why_tests_cant": "depends on writes pending in the same block", "anchors": ["src/storage/store/account/store.rs: prune_messages, is_conflict/prunable checks", "src/storage/store/engine.rs: prune_messages", "src/storage/store/stores.rs: StoreLimits"]}
{"id": "C20", "title": "Revoking a signer removes exactly that signer's messages", "statement": "After a signer is revoked for an account, no message of that account signed by it remains in the affected sets, and messages of other signers or accounts are unaffected.", "quantifier": "every committed store, account and signer, including messages pending in the same block", "why_tests_cant": "all states", "anchors": ["src/storage/store/account/store.rs: revoke_messages_by_signer, revoke", "src/storage/store/stores.rs: revoke_messages", "src/storage/store/engine.rs: should_revoke_signer"]}
{"id": "C21", "title": "A username proof names one owner", "statement": "At every time at most one account holds a given off-chain username proof, it is the account of the newest accepted proof, and listing by account or by name agree.", "quantifier": "every history of proof merges by any accounts", "why_tests_cant": "cross-account histories", "anchors": ["src/storage/store/account/username_proof_store.rs: get_merge_conflicts, build_secondary_indices, delete_secondary_indices"]}
{"id": "C22", "title": "Registered names resolve to their owner", "statement": "After any sequence of name transfers (register, transfer, renew, release) the name looks up to its last accepted owner and that owner looks up to a name it owns.", "quantifier": "every sequence of transfers with any timestamps", "why_tests_cant": "history dependent", "anchors": ["src/storage/store/account/name_registry_events.rs: put_username_proof_transaction, delete_username_proof_transaction", "src/storage/store/account/user_data_store.rs: merge_username_proof"]}
{"id": "C23", "title": "Storage lending conserves storage", "statement": "Lending moves units from lender to borrower: the units all accounts may use together never exceed the units rented and unexpired, and an account never has a negative or wrapped-around amount.", "quantifier": "every history of rents, lends, lend changes and expiries", "why_tests_cant": "interaction of expiry with earlier lends", "anchors": ["src/storage/store/account/onchain_event_store.rs: StorageSlot::merge, sub, from_event, is_active", "src/storage/store/stores.rs: get_storage_slot_for_fid", "src/storage/store/account/storage_lend_store.rs"]}
{"id": "C24", "title": "Message limits follow storage units", "statement": "The number of messages an account may store of each kind is the sum over its unit classes of class limit times units, so more units of any class never lower a limit and an account without units may store nothing.", "quantifier": "all unit counts", "why_tests_cant": "all values, arithmetic width", "anchors": ["src/storage/store/stores.rs: StoreLimits::max_messages, Limits"]}
{"id": "C25", "title": "Rented storage expires in the cohort of its rent", "statement": "The class and expiry of a storage rent depends only on the rent's own timestamp and network, later rents never get an earlier class, and a rent is active exactly until its expiry.", "quantifier": "all rent timestamps, networks and current times", "why_tests_cant": "all times around several cut-over dates", "anchors": ["src/storage/store/account/onchain_event_store.rs: StorageSlot::from_event"]}
{"id": "C26", "title": "The signer set follows the chain, not the order of arrival", "statement": "Whether a key may sign for an account is determined by the chain-latest signer event for that key (block, then log position), independently of the order in which events were delivered.", "quantifier": "every set of signer events and every delivery order", "why_tests_cant": "all permutations", "anchors": ["src/storage/store/account/onchain_event_store.rs: build_secondary_indices_for_signer, get_active_signer", "src/storage/store/account/active_key.rs"]}
{"id": "C27", "title": "A delegated key belongs to one account", "statement": "At every time a gasless key is registered for at most one account, the reverse lookup from key to account agrees with the registrations, and removing it clears every trace (registration, reverse lookup, usage time).", "quantifier": "every history of key additions and removals by all accounts", "why_tests_cant": "unbounded interleavings across accounts", "anchors": ["src/storage/store/account/gasless_key_merge.rs: merge_key_add, merge_key_remove", "src/storage/store/account/key_add_store.rs", "src/storage/store/account/key_last_used_at_store.rs"]}
{"id": "C28", "title": "Key authorizations cannot be replayed", "statement": "The counter of an account (and of an app for self-revocations) strictly increases with every accepted authorization, so a custody-signed key addition or removal that was accepted once is never accepted again.", "quantifier": "every history of authorizations", "why_tests_cant": "unbounded histories", "anchors": ["src/storage/store/account/key_nonce_store.rs", "src/storage/store/account/gasless_key_merge.rs"]}
{"id": "C29", "title": "The number of delegated keys is bounded and counted exactly", "statement": "The per-account counter equals the number of registered gasless keys of that account and never exceeds 1000.", "quantifier": "every history", "why_tests_cant": "unbounded histories", "anchors": ["src/storage/store/account/gasless_key_merge.rs: merge_key_add", "src/storage/store/account/key_add_store.rs: increment_count, decrement_count", "src/core/validations/key.rs: MAX_GASLESS_KEYS_PER_FID"]}
{"id": "C30", "title": "A delegated key acts only within its scopes and sliding lifetime", "statement": "A message is admitted by a gasless key only if the key is registered for the account, the message type is among the granted scopes and the last recorded use plus the lifetime has not passed; using the key never shortens its lifetime.", "quantifier": "all keys, scopes, lifetimes and block times", "why_tests_cant": "all times and histories of use", "anchors": ["src/storage/store/account/active_key.rs", "src/storage/store/account/key_last_used_at_store.rs"]}
{"id": "C31", "title": "Channel roles cannot be escalated", "statement": "Only the owner appoints or dismisses other moderators; a plain member or outsider can only change their own membership; a banned account cannot re-enter until the owner or a moderator lifts the ban; the owner cannot be banned.", "quantifier": "every history of membership actions by any accounts", "why_tests_cant": "unbounded histories of actions over changing roles", "anchors": ["src/storage/store/block_engine.rs: channel_member_authority, validate_channel_message", "src/storage/store/account/channel_store.rs: member_state, merge_slot"]}
{"id": "C32", "title": "Channel counters are exact and capped", "statement": "The stored number of live moderators and of used member/moderation slots equals the actual number, there are never more than 10 moderators, 8192 member slots or 16384 moderation slots in a channel, and a refused message changes nothing.", "quantifier": "every history of accepted channel messages", "why_tests_cant": "unbounded histories", "anchors": ["src/storage/store/account/channel_store.rs: merge_slot, CHANNEL_MEMBER_SLOT_CAP, CHANNEL_MODERATE_SLOT_CAP", "src/storage/store/block_engine.rs: CHANNEL_MODERATOR_CAP"]}
{"id": "C33", "title": "A channel slot shows the last accepted action", "statement": "For each channel and member (or pin, or moderated cast) the visible state is that of the last accepted message, independent of other slots, and replaced messages are no longer stored.", "quantifier": "every history", "why_tests_cant": "unbounded histories", "anchors": ["src/storage/store/account/channel_store.rs: merge_slot, fold_channel_modes, member_state"]}
{"id": "C34", "title": "Verification quota holds on shard zero", "statement": "On the block shard, an account never holds more live verifications than its limit at admission nor more tombstones than the tombstone cap, and the counts used for admission inside a block equal the real numbers.", "quantifier": "every sequence of verification messages inside and across blocks", "why_tests_cant": "counts are maintained incrementally over unbounded histories", "anchors": ["src/storage/store/block_engine.rs: verification_tombstone_cap, verification_row_cap, apply_verification_count_delta, validate_user_message_with_verification_counts"]}
{"id": "C35", "title": "A proposed block is accepted by every validator in the same state", "statement": "Replaying a proposed block on a node with the same committed state gives the same account roots and the same state root, whatever was proposed, simulated or rolled back there before.", "quantifier": "every committed state, mempool content and history of abandoned rounds", "why_tests_cant": "all states and interleavings of rounds", "anchors": ["src/storage/store/engine.rs: propose_state_change, replay_proposal, validate_state_change, start_round", "src/storage/store/block_engine.rs: propose_state_change, replay_proposal"]}
{"id": "C36", "title": "Commit stores what was validated", "statement": "Committing a decided block leaves exactly the state obtained by replaying it on the previous state, whether or not the cached result of an earlier validation is used.", "quantifier": "every sequence of proposals, validations and one commit", "why_tests_cant": "cache hits depend on the schedule", "anchors": ["src/storage/store/engine.rs: is_cached_txn_valid, commit_shard_chunk, commit_and_emit_events"]}
{"id": "C37", "title": "A crash never wedges or corrupts a node", "statement": "If the process stops at any point while committing a block, restarting and committing the same block again succeeds and leaves the same state as an uninterrupted commit.", "quantifier": "every block and every crash point between the durable writes of a commit", "why_tests_cant": "crash points", "anchors": ["src/storage/store/block_engine.rs: commit_block, generate_block_events", "src/storage/store/engine.rs: commit_and_emit_events, put_shard_chunk"]}
{"id": "C38", "title": "Block events reach shards gap-free and in order", "statement": "Block events are numbered consecutively over the whole chain, and a shard applies each exactly once and in number order.", "quantifier": "every sequence of blocks and every delivery order", "why_tests_cant": "all delivery orders and histories", "anchors": ["src/storage/store/block_engine.rs: generate_block_events", "src/storage/store/engine.rs: handle_block_event", "src/storage/store/account/block_event_store.rs", "src/mempool/mempool.rs: MempoolKey"]}
{"id": "C39", "title": "The sync trie mirrors the stores", "statement": "After every committed block the trie contains exactly one key for each stored message, on-chain event and registered name.", "quantifier": "every history of blocks", "why_tests_cant": "unbounded histories", "anchors": ["src/storage/trie/merkle_trie.rs: TrieKey::for_hub_event, MerkleTrie::update_for_event", "src/storage/store/engine.rs: replay_snapchain_txn"]}
{"id": "C40", "title": "The mempool hands out messages in priority order, once", "statement": "Messages pulled for a block come in (kind, timestamp, identity) order, a message that is already pending or already merged is not admitted twice, and two different messages are never mistaken for each other.", "quantifier": "every sequence of inserts, pulls and commits", "why_tests_cant": "all interleavings", "anchors": ["src/mempool/mempool.rs: MempoolKey, insert_into_shard, pull_messages, message_is_valid"]}
{"id": "C41", "title": "Rate limits admit at most the quota", "statement": "Within any hour an account gets at most its hourly allowance (plus burst) of messages into the mempool, while key removals are never rate limited.", "quantifier": "every arrival schedule", "why_tests_cant": "all schedules", "anchors": ["src/mempool/mempool.rs: RateLimits, consume_for_fid"]}
{"id": "C42", "title": "Every message has one home shard", "statement": "Routing is total and stable: a message of an account is always assigned to the same shard in 1..n (or to the block shard 0 by kind and version), so one account's data is never split.", "quantifier": "all fids, shard counts and message kinds", "why_tests_cant": "all values", "anchors": ["src/mempool/routing.rs: route_fid, route_message"]}
{"id": "C43", "title": "Accepted certificates carry a quorum of distinct validators", "statement": "If the signature check accepts a certificate then more than two thirds of the validator set signed it, counting every validator once; and every certificate with a quorum of valid signatures of distinct validators is accepted.", "quantifier": "all validator sets and certificates", "why_tests_cant": "all multisets and orders of signatures", "anchors": ["src/core/util.rs: verify_signatures"]}
{"id": "C44", "title": "A read node applies only certified blocks, in height order, each once", "statement": "A following node commits decided values one height after another without gaps or repetition whatever the order of arrival, and only values the validators signed.", "quantifier": "every arrival sequence, including from malicious peers", "why_tests_cant": "all arrival orders", "anchors": ["src/consensus/read_validator.rs: process_decided_value, process_buffered_blocks, verify_signatures"]}
{"id": "C45", "title": "The decided value is the validated value", "statement": "The value committed on decision is one that this validator validated for that height and hash.", "quantifier": "every sequence of received proposals", "why_tests_cant": "all message sequences including equivocation", "anchors": ["src/consensus/proposer.rs: ProposedValues, ShardProposer::add_proposed_value, BlockProposer::add_proposed_value, decide"]}
{"id": "C46", "title": "The validator set of a height is well defined", "statement": "For each height the configured set with the latest activation at or before it is used; all nodes with the same configuration agree; and the proposer rotates through the set fairly.", "quantifier": "all configurations, heights and rounds", "why_tests_cant": "all heights", "anchors": ["src/consensus/validator.rs: get_validator_set", "src/core/types.rs: SnapchainValidatorSet, select_proposer"]}
{"id": "C47", "title": "Blocks witness shards without skipping", "statement": "In consecutive blocks the witnessed height of every shard stays or advances by exactly one, never goes back or skips.", "quantifier": "every sequence of blocks proposed by the node and shard progress", "why_tests_cant": "all interleavings of shard progress", "anchors": ["src/consensus/proposer.rs: collect_confirmed_shard_witnesses"]}
{"id": "C48", "title": "What is merged is what was signed", "statement": "The content of an accepted message (account, type, body, timestamp) is the content covered by its signature and hash.", "quantifier": "every message, including ones carrying both encoded and decoded data", "why_tests_cant": "all encodings", "anchors": ["src/core/validations/message.rs: validate_message", "src/storage/store/account/message.rs: message_bytes_decode, message_encode", "src/storage/store/engine.rs: validate_user_message"]}
{"id": "C49", "title": "Protocol features turn on once and stay on", "statement": "On every network the engine version never decreases over time, and (except for the deliberately re-enabled signer bug compatibility window) a feature that is active stays active.", "quantifier": "all timestamps and networks", "why_tests_cant": "all times", "anchors": ["src/version/version.rs: EngineVersion::version_for, is_enabled, protocol_version"]}
{"id": "C50", "title": "Channel identifiers have one spelling", "statement": "A channel URI is accepted iff it is the canonical spelling of (chain, contract, token), parsing and printing are inverse to each other, so two different accepted strings never denote the same channel.", "quantifier": "all strings and all identifiers", "why_tests_cant": "all strings", "anchors": ["src/core/channel_uri.rs"]}
{"id": "C51", "title": "Message size and text rules", "statement": "An accepted cast or link obeys its documented limits, raising limits in a later version never rejects what an earlier version accepted, and mention positions are sorted, in range and as many as mentions.", "quantifier": "all bodies and versions", "why_tests_cant": "all inputs", "anchors": ["src/core/validations/cast.rs", "src/core/validations/link.rs", "src/core/validations/message.rs"]}
{"id": "C52", "title": "LiveAt keeps only the newest presence", "statement": "Among all presence messages of an account submitted to a node the one kept for proposal is the newest, whatever the order of submission.", "quantifier": "every order of submissions", "why_tests_cant": "all orders", "anchors": ["src/mempool/mempool.rs: prepare_live_at_insert, live_at_lww_compare"]}
{"id": "C53", "title": "Signed key authorizations respect their deadlines", "statement": "A key addition or removal is refused once the deadline signed by the account's custody wallet, or the deadline signed by the requesting app, has passed.", "quantifier": "every authorization, deadline and time of arrival", "why_tests_cant": "all times; the missing check shows only for stale authorizations", "anchors": ["src/core/validations/key.rs: validate_key_add_body, validate_key_remove_body", "src/storage/store/account/gasless_key_merge.rs: merge_key_add, merge_key_remove"]}
{"id": "C54", "title": "A replaced channel action cannot be brought back by replaying it", "statement": "Sending a channel message again after it has been replaced (a moderator was dismissed, a ban lifted) does not restore its effect.", "quantifier": "every history of channel messages and every later re-submission", "why_tests_cant": "needs re-submission after arbitrary later histories", "anchors": ["src/storage/store/account/channel_store.rs: merge_slot", "src/storage/store/block_engine.rs: validate_channel_message"]}
{"id": "C55", "title": "A cancelled storage loan stays cancelled", "statement": "After a loan is cancelled by a message with zero units, sending the earlier loan message again does not restore the loan.", "quantifier": "every history of loan messages", "why_tests_cant": "needs re-submission after arbitrary histories", "anchors": ["src/storage/store/account/storage_lend_store.rs: merge"]}
{"id": "C56", "title": "Data shards end up with the verifications shard 0 accepted", "statement": "A data shard that re-applies, in order, the verification messages accepted by shard 0 reaches the same verification store as shard 0; for every address shard 0 accepted a message about, this holds even if the data shard disagreed before, and other addresses are untouched.", "quantifier": "every history of shard 0 and every earlier state of the data shard", "why_tests_cant": "all interleavings and timestamp disagreements", "anchors": ["src/storage/store/account/store.rs: merge_force_override, get_existing_merge_conflicts", "src/storage/store/engine.rs: merge_replayed_verification"]}
{"id": "C57", "title": "Lookup of a block by time and pruning by time", "statement": "Looking up a time returns the first stored block at or after it; the pruning job removes exactly the blocks older than its cutoff and never the newest block; blocks are never altered.", "quantifier": "every chain of blocks with increasing heights and non-decreasing times, every interleaving of storing and pruning, every looked-up time", "why_tests_cant": "interplay of the time index with pruning for all chains", "anchors": ["src/storage/store/block.rs: put_block, get_next_height_by_timestamp, prune_until", "src/storage/store/shard.rs: put_shard_chunk, get_next_height_by_timestamp, prune_until", "src/jobs/block_pruning.rs"]}
{"id": "C59", "title": "Replaying a block gives the same result whenever it is executed", "statement": "Executing a given block on a given state gives the same state no matter at what wall-clock time the node executes it.", "quantifier": "every state, block and pair of execution times", "why_tests_cant": "tests execute blocks right away; a node that syncs later executes them months later", "anchors": ["src/storage/store/account/onchain_event_store.rs: StorageSlot::is_active, merge, sub", "src/storage/store/block_engine.rs: replay_snapchain_txn, lend validation"]}
{"id": "C58", "title": "Channel ownership tables agree with each other and with the chain", "statement": "After any channel events in any order, each channel has one owner, an address lists exactly the channels it owns, a label leads to the channel it is the hash of, chain state never goes backwards, the reported ownership change is the change made, and events delivered in chain order leave the owner and expiry of the registry.", "quantifier": "every sequence of channel registration, renewal and transfer events in any grouping; every hash function", "why_tests_cant": "all histories and orders of delivery", "anchors": ["src/storage/store/account/onchain_event_store.rs: channel ownership index", "src/storage/store/block_engine.rs: resolve_channel_owner_fid"]}
{"id": "C60", "title": "Custody of an account follows the chain", "statement": "The custody event of an account is its registration or transfer of the latest block, independently of the order and grouping of delivery.", "quantifier": "every set of identity events and every delivery order", "why_tests_cant": "all permutations", "anchors": ["src/storage/store/account/onchain_event_store.rs: build_secondary_indices_for_id_register, get_id_register_event_by_fid"]}
{"id": "C61", "title": "A paid subscription lasts exactly the days paid", "statement": "A subscription is active at a time exactly if some purchase made by then, extended by all days bought since that purchase, reaches that time; every purchase is honoured for its days.", "quantifier": "every list of purchases and every time", "why_tests_cant": "overlapping purchases and gaps in all combinations", "anchors": ["src/storage/store/account/onchain_event_store.rs: is_tier_subscription_active_at, get_tier_expiration"]}
{"id": "C62", "title": "Displayed usernames are owned", "statement": "Whenever an account's profile shows a username, that account holds the current registration (or proof) of the name; a displayed username is taken away when, and only when, the name leaves the account.", "quantifier": "every history of name transfers, username messages and proofs, in any blocks", "why_tests_cant": "depends on the interleaving of two stores across accounts and on which state each check reads", "anchors": ["src/storage/store/engine.rs: replay_snapchain_txn (fname_transfer), validate_username, get_username_proof"]}
{"id": "C63", "title": "A message's body is of its declared type", "statement": "An admitted message carries the kind of body its type says; the type, which selects the key's scope, the store and the size limit, can not be chosen freely for a body.", "quantifier": "every message, type and body", "why_tests_cant": "19 types times 18 bodies, and the checks are spread over validation, admission and merging", "anchors": ["src/core/validations/message.rs: validate_message", "src/storage/store/engine.rs: validate_user_message, merge_message"]}
{"id": "C64", "title": "A verification shows control of its address", "statement": "A verification is accepted only if the address signed a claim naming the account, network and block hash.", "quantifier": "every address, protocol, verification type, chain id and signature", "why_tests_cant": "absence of an accepted unsigned claim is universal", "anchors": ["src/core/validations/verification.rs: validate_add_address, validate_verification_add_eth_address_signature"]}
{"id": "C65", "title": "Names and profile fields have exactly the documented shape", "statement": "A username, ENS name, base name, twitter or github name, location, profile token or primary address is accepted exactly if it has its documented grammar and length.", "quantifier": "every string", "why_tests_cant": "regular expressions over all strings, combined with independent length and split checks", "anchors": ["src/core/validations/message.rs: validate_fname, validate_ens_name, validate_base_name, validate_twitter_username, validate_github_username, validate_user_location, validate_caip19_format, validate_user_data_add_body"]}
{"id": "C66", "title": "Static rules of the other bodies", "statement": "Key, channel, lend, frame and reaction bodies are accepted exactly within their documented widths, ranges and enums; a lend is never older than ten minutes.", "quantifier": "every body and block time", "why_tests_cant": "all boundary combinations, including clock underflow", "anchors": ["src/core/validations/key.rs: validate_key_add_body, validate_key_remove_body", "src/core/validations/message.rs: validate_channel_update_body, validate_lend_storage_body, validate_frame_action_body", "src/core/validations/reaction.rs"]}
{"id": "C67", "title": "Paged walks over the trie are complete", "statement": "A client that follows the page tokens from the start, with any page size of at least one, receives every stored key below the prefix exactly once and in order, in full pages except the last, and stops; the result depends neither on the page size nor on the history of the trie.", "quantifier": "every reachable trie, prefix, page size", "why_tests_cant": "all tree shapes and all places where a page can end", "anchors": ["src/storage/trie/merkle_trie.rs: get_paged_values_of_subtree, encode_trie_page_token, decode_trie_page_token", "src/storage/trie/trie_node.rs: get_node_from_trie", "src/replication/replicator.rs: messages_for_trie_prefix"]}
{"id": "C68", "title": "Transactions are serializable and deadlock-free", "statement": "Whatever the interleaving of concurrent database transactions, aborts included, the database is the one obtained by running the transactions that ended alone, in the order of their ends; transactions that take their keys in ascending order, as every batch commit does, never block each other for good.", "quantifier": "every set of transactions and every interleaving", "why_tests_cant": "all interleavings of any number of transactions", "anchors": ["src/storage/db/rocksdb.rs: commit, transaction_with, put, del"]}
{"id": "C69", "title": "The by-address index migration is safe at every moment", "statement": "While the migration of the verification-by-address index runs in the background, interleaved in any way with merged blocks, crashes and restarts, every entry of the new form agrees with the primary entry; no old entry is removed before every verification is indexed; when it finishes, the index is exactly the set of verifications; left alone it finishes; running it again changes nothing; it visits every registered fid once.", "quantifier": "every database in order, every interleaving with live batches, crashes and restarts", "why_tests_cant": "all interleavings and all databases", "anchors": ["src/storage/store/migrations/m2_verification_by_address_index.rs", "src/storage/store/account/onchain_event_store.rs: FIDIterator", "src/storage/store/account/verification_store.rs: get_verifications_by_address"]}
{"id": "C70", "title": "The schema version tells the truth", "statement": "In every reachable state a schema version of at least two implies that the by-address index is the exact mirror of the verifications; an interrupted or failed migration never prevents a later start from reaching the latest version.", "quantifier": "every interleaving of migrations, live batches, crashes and restarts", "why_tests_cant": "all crash points", "anchors": ["src/storage/store/migrations/mod.rs: MigrationRunner", "src/storage/store/stores.rs: get_schema_version, set_schema_version"]}
{"id": "C71", "title": "The owner of an address is the latest verifier", "statement": "With a complete index the verifications of an address found through the open batch are exactly the verifiers, and the owner is the unique verifier with the greatest time and hash, the lower fid winning a tie; with an incomplete index an owner is still a verifier.", "quantifier": "every database, open batch and address", "why_tests_cant": "all combinations of stored and pending verifications", "anchors": ["src/storage/store/account/verification_store.rs: get_verifications_by_address, select_verification_address_winner", "src/storage/store/block_engine.rs: resolve_channel_owner_fid"]}
{"id": "C72", "title": "A bootstrapped node holds the state of the node that served it", "statement": "Replaying the messages, on-chain events and names listed by the snapshot's trie yields the stores of the serving node: every message, tombstone, compact state and index entry, every registered name and every active signer, whatever the order of the messages and the division into pages, and if pages are replayed again after an interruption.", "quantifier": "every history of the serving node, every order and division into pages with repetitions", "why_tests_cant": "all histories and all pagings; the trie root covers message hashes only, not the derived indexes", "anchors": ["src/bootstrap/replication/service.rs: process_vts_work_item", "src/storage/store/engine.rs: replay_replicator_message", "src/storage/store/account/store.rs: merge (conflict_free)", "src/storage/store/account/name_registry_events.rs"]}
{"id": "C73", "title": "A bootstrapping node accepts only what the snapshot's root stands for", "statement": "Whoever serves the pages, a bootstrap that ends with the root of the snapshot has merged exactly the snapshot's messages, on-chain events and names with their content: every key in the trie has its item in the stores, every merged item is listed and authentic, and items with the same key have the same content; every account has the root supplied for it.", "quantifier": "every sequence of pages, entries and roots that peers may send", "why_tests_cant": "arbitrary peers", "anchors": ["src/bootstrap/replication/service.rs: process_vts_work_item, validate_messages_signatures, check_fid_roots", "src/storage/store/engine.rs: replay_replicator_message", "src/storage/trie/merkle_trie.rs: TrieKey::for_hub_event"]}
{"id": "C74", "title": "Parallel and interrupted bootstraps end with the root of the snapshot", "statement": "For every interleaving of the tasks, every stop and every refused page, the stored trie is at all times the trie of the pages written, and once all pages are written its root is the root of the snapshot, also when resumed.", "quantifier": "every interleaving of trie updates, writes, refusals and restarts", "why_tests_cant": "interleavings of tasks and crash points", "anchors": ["src/bootstrap/replication/service.rs: commit_to_trie, commit_to_db, start_shard_replication_batch, get_or_gen_vts_status, verify_shard_roots"]}
{"id": "C75", "title": "The event stream accounts for every change of a store", "statement": "Applying the events of a store in order (add the merged message, drop the deleted, pruned and revoked ones) yields exactly the messages the store holds, at every block boundary and inside a block; each event adds something absent and deletes things present, each once; the sync trie built from the events has exactly the keys of the stored messages.", "quantifier": "every history of merges, prunes, revocations, compact states, commits and rollbacks", "why_tests_cant": "long histories with interleaved scans and supersession inside one block", "anchors": ["src/storage/store/account/store.rs: merge, prune_messages, revoke_messages_by_signer", "src/storage/trie/merkle_trie.rs: for_hub_event, update_for_event"]}
{"id": "C76", "title": "A client of the events API gets every event exactly once", "statement": "A client that follows the page tokens of get_events until they are exhausted receives every stored event of the requested range and shards exactly once, in order per shard, with its block number, shard and the timestamp of its block; a subscriber from an event id receives every event from that id on exactly once.", "quantifier": "every content of the shards, page size, direction, and every interleaving of commits, channel sends, page reads, subscriptions and receives", "why_tests_cant": "interleavings of a live chain with a replay; numbers of pages per shard", "anchors": ["src/network/server.rs: get_events, get_events_from_store, rewrite_hub_event, subscribe", "src/storage/store/account/event.rs: get_events", "src/storage/store/engine.rs: commit_and_emit_events"]}
{"id": "C77", "title": "The event pruning job removes exactly the events older than the retention time", "statement": "After a run of the event pruning job with cutoff c, the events left in a shard are exactly those stored before whose block is not older than c, whatever block pruning jobs ran before.", "quantifier": "every history of committed blocks, block pruning jobs and event pruning jobs, all cutoffs", "why_tests_cant": "the interplay of two retention settings over a long history", "anchors": ["src/jobs/event_pruning.rs: event_pruning_job", "src/jobs/block_pruning.rs: block_pruning_job", "src/storage/store/stores.rs: prune_events_until, prune_shard_chunks_until, get_next_height_by_timestamp", "src/storage/store/account/event.rs: prune_events_util"]}
{"id": "C78", "title": "Every on-chain event of a watched contract reaches the mempool", "statement": "Every log of a watched contract from the configured start block on is handed to the mempool at least once, over restarts, failed requests, reconnects and failed decodings; a poll terminates at the head of the chain; nothing at or below the recorded block is missing.", "quantifier": "every chain of logs, every history of starts, polls, stream batches, retries, crashes and answers of the chain node", "why_tests_cant": "failures and crashes at every point of an unbounded history", "anchors": ["src/connectors/onchain_events/mod.rs: run, sync_historical_events, get_logs_with_retry, poll, record_block_number, retry_fid"]}
{"id": "C79", "title": "Every username transfer of the server reaches the mempool", "statement": "Every well-formed transfer with an id after the configured start is handed to the mempool, in id order, over restarts, failed requests and crashes, and the recorded id never passes a transfer that was not sent.", "quantifier": "every sequence of transfers, honest pages of any size, failures, crashes, restarts and operator retries", "why_tests_cant": "crashes inside pages, all page boundaries", "anchors": ["src/connectors/fname/mod.rs: fetch, set_initial_position, run, retry_fid, retry_fname"]}
{"id": "C80", "title": "A served snapshot shows the block it is labelled with", "statement": "Every snapshot kept for replication of a shard under height h holds the state of the shard after block h; a snapshot older than the configured age is dropped when the next block of its shard is handled, no younger one is; a fresh block whose height is a multiple of the interval gets a snapshot.", "quantifier": "every interleaving of commits of any shards, handled post-commit messages, clock values and failing opens", "why_tests_cant": "a race between the engine's bounded wait and the replicator task", "anchors": ["src/network/replication/replicator.rs: handle_post_commit_message","src/network/replication/replication_stores.rs", "src/storage/store/engine.rs: post_commit"]}
{"id": "C81", "title": "A walk over a served snapshot returns every item of its trie", "statement": "Following page tokens over a virtual shard of a served snapshot returns every trie key of that virtual shard exactly once and in order, each with the stored message, on-chain event or username of that key, whatever the hash cache holds; the cache holds only what was built from the snapshot of its key and keeps to its size limit.", "quantifier": "every trie history, every snapshot content, every sequence of cache reads and writes", "why_tests_cant": "all contents, page boundaries and cache states", "anchors": ["src/network/replication/replicator.rs: messages_for_trie_prefix, build_fid_user_message_type_cache, build_fid_onchain_message_type_cache, MessageHashCache"]}
{"id": "C82", "title": "Consensus and sync messages survive the wire", "statement": "A vote, proposal, proposed block or status that a validator publishes reaches the consensus actors of exactly the shard it is about, unchanged; sync requests and responses decode to what was encoded; and whatever bytes a peer sends, what the actors of a shard receive is about that shard.", "quantifier": "every message with fields in range, every byte string from a peer", "why_tests_cant": "all field values, unknown and repeated fields, re-encoding between gossip and the actors", "anchors": ["src/consensus/malachite/snapchain_codec.rs", "src/network/gossip.rs: map_gossip_bytes_to_system_message", "src/consensus/malachite/network_connector.rs", "src/core/types.rs: Vote, Proposal, CommitsExt"]}
{"id": "C83", "title": "Signed consensus bytes identify what was signed", "statement": "The bytes a validator signs determine the vote or proposal: two different votes, two different proposals, and a vote, a proposal and a proposed block never have the same signed bytes.", "quantifier": "all votes, proposals and proposed blocks with fields in range", "why_tests_cant": "injectivity over all field values", "anchors": ["src/core/types.rs: Vote::to_sign_bytes, Proposal::to_sign_bytes", "proto/src/lib.rs: FullProposal::to_sign_bytes"]}
{"id": "C84", "title": "Bytes from the network never stop a node", "statement": "No byte string a peer sends by gossip or as a sync request or response makes a task of the node panic.", "quantifier": "every byte string", "why_tests_cant": "all malformed inputs", "anchors": ["src/network/gossip.rs: map_gossip_bytes_to_system_message, map_sync_message_to_system_message", "src/core/types.rs: Vote::from_proto, Proposal::from_proto, Address::from_vec, to_commit_certificate", "proto/src/lib.rs: FullProposal::height"]}
{"id": "C85", "title": "A downloaded snapshot is the database it was made of", "statement": "For every database, chunk size and order in which the chunk directory is listed, downloading and unpacking an uploaded snapshot gives the rows of the database.", "quantifier": "all databases, archives, chunk sizes, batch sizes, listing orders", "why_tests_cant": "the order of read_dir and the sizes are not controlled by a test", "anchors": ["src/storage/db/multi_chunk_writer.rs", "src/storage/db/backup.rs: backup_db, create_tar_gzip", "src/storage/db/snapshot.rs: upload_to_s3, download_snapshots"]}
{"id": "C86", "title": "Uploading and clearing a shard's snapshots only affects that shard", "statement": "An upload that stops early leaves the previous snapshot downloadable; clearing keeps the current snapshot of the shard, removes the older ones, and never changes what another shard's download gives.", "quantifier": "all buckets, shards, upload prefixes, served metadata", "why_tests_cant": "all pairs of shard numbers and all interruption points", "anchors": ["src/storage/db/snapshot.rs: upload_to_s3, clear_old_snapshots, get_objects_under_key, snapshot_directory"]}
{"id": "C87", "title": "One snapshot upload at a time", "statement": "At most one upload works in the backup directory at any time, and a crashed upload blocks later ones only for a bounded time.", "quantifier": "all interleavings of starts, entries, ends and crashes, all clocks", "why_tests_cant": "interleavings and times", "anchors": ["src/jobs/snapshot_upload.rs: upload_snapshot"]}
{"id": "C88", "title": "A node serves only with its whole database", "statement": "After any sequence of interrupted starts, a node that goes on to serve has all the files that the bootstrap or the snapshot delivers, and no others.", "quantifier": "all archives, configurations, interruption points, later starts", "why_tests_cant": "all crash points", "anchors": ["src/main.rs: db_is_empty and the bootstrap branches", "src/bootstrap/replication/service.rs: get_snapshot_rocksdb_dir, move_dir_contents", "src/storage/db/snapshot.rs: download_snapshots"]}
{"id": "C89", "title": "One proposal per height and round", "statement": "A validator asked again for a value of the same height and round, in the same process or after any restarts, proposes the same value it proposed before, until the height is committed; and the value carries that height and round.", "quantifier": "all states, engines, sequences of requests, received proposals, decisions, restarts, storage errors", "why_tests_cant": "all interleavings of crashes and requests", "anchors": ["src/consensus/validator.rs: propose_value, decide", "src/storage/store/node_local_state.rs: put_proposal, get_proposal, delete_proposals"]}
{"id": "C90", "title": "A decided own proposal is committed", "statement": "When a certificate for a value that the node itself proposed arrives, the node finds the value and commits it, also after a restart.", "quantifier": "all states, engines, sequences of inputs and restarts", "why_tests_cant": "unbounded runs after the restart", "anchors": ["src/consensus/validator.rs: propose_value, get_proposed_value", "src/consensus/malachite/host.rs: GetValue, Decided", "src/consensus/proposer.rs: ProposedValues"]}
{"id": "C91", "title": "Local records are kept apart", "statement": "Each of the node's local records (proposals, chain positions, name transfer position, migration tokens, bootstrap work units and account roots) reads as it was last written; deleting the proposals of a height touches nothing else.", "quantifier": "all sequences of writes, all keys", "why_tests_cant": "all pairs of keys", "anchors": ["src/storage/store/node_local_state.rs"]}
{"id": "C92", "title": "Reads over all shards list every row once", "statement": "Following the page tokens of casts by parent or mention, reactions by cast or target, and links by target, a client reads every shard's rows exactly once and then comes to an end.", "quantifier": "all numbers of shards, contents, page sizes and requests", "why_tests_cant": "all combinations of page counts; endless listings", "anchors": ["src/network/server.rs: get_casts_by_parent, get_casts_by_mention, get_reactions_by_cast, get_reactions_by_target, get_links_by_target"]}
{"id": "C93", "title": "The follower listing is complete across shards", "statement": "Following the page tokens of a channel's followers ends, and lists every shard's rows exactly once; a page is only served if every shard is hosted and every unfinished one answers; a token is accepted only if it names every shard exactly once.", "quantifier": "all numbers of shards, contents, page sizes, tokens", "why_tests_cant": "all combinations of page counts and tokens", "anchors": ["src/network/server.rs: get_channel_followers, decode_shard_cursors, encode_shard_cursors, all_shard_stores"]}
{"id": "C94", "title": "The signer listing is complete and has no repeats", "statement": "Following the page tokens of an account's signers lists the on-chain signers and then the gasless keys, each active key once, in full pages, and ends.", "quantifier": "all contents of both stores, page sizes and requests", "why_tests_cant": "all splits of two listings over pages", "anchors": ["src/network/server.rs: list_signers_for_fid", "src/storage/store/account/onchain_event_store.rs: get_signers", "src/storage/store/account/key_add_store.rs: list_gasless_keys_by_fid"]}
{"id": "C95", "title": "The name index migration restores what was lost and harms nothing", "statement": "After the fname index migration every visited account that owns a registered name looks up to a name it owns; rows that were there are kept; stopping and restarting it changes nothing; merges that happen meanwhile do not make the index point to another account's name.", "quantifier": "all histories of name proofs, all account lists, all interleavings with merges and restarts", "why_tests_cant": "the one test repairs one hand-deleted row of one account on an idle node; which histories lose rows, and what a concurrent transfer does, is a question about all histories and schedules", "anchors": ["src/storage/store/migrations/m1_fix_fname_index.rs: run", "src/storage/store/account/name_registry_events.rs: put_username_proof_transaction", "src/storage/trie/merkle_trie.rs: for_fname"]}
{"id": "C96", "title": "The on-chain event migration job misses nothing and repeats little", "statement": "When the job that copies a shard's on-chain events to shard 0 finishes, every event the shard held at the start has been handed to the mempool unless shard 0 had it; with failures and restarts an event is handed over at most once more for each failed pass; without failures the job ends.", "quantifier": "all stores, all sequences of passes with failing reads, sends and writes, all additions meanwhile", "why_tests_cant": "tests run an empty store and the back-pressure loop only", "anchors": ["src/jobs/migrate_onchain_events.rs: migrate_onchain_events, migrate_shard_onchain_events_batch", "src/storage/store/node_local_state.rs: get_onchain_events_migration_page_token", "src/storage/store/account/onchain_event_store.rs: get_all_onchain_events"]}
{"id": "C97", "title": "A read node's sync announces completion once and soundly, and accounts for its requests", "statement": "The sync actor of a read node announces the end of the initial sync at most once, only with peers known and the node close to all of them; every request sent is either outstanding, answered or reported expired once; an answer from an honest peer never stops the actor; the node subscribes to decided values exactly when all shards have announced.", "quantifier": "every sequence of network events, answers, timeouts and reactions of the sync library", "why_tests_cant": "interleavings of statuses, requests, answers and timeouts of any length, with any peers' heights and pruning ranges", "anchors": ["src/consensus/malachite/read_sync.rs:94-425", "src/consensus/malachite/read_host.rs:60-100", "src/main.rs:613-664", "src/consensus/read_validator.rs:196-228"]}
{"id": "C98", "title": "Inbound gossip reaches exactly the shard it names and cannot take the node down", "statement": "Each consensus, proposal or status message received by gossip reaches the actor of the shard it names, once, in order and with the delivering peer; read nodes and validators handle only their own kinds of messages; no gossip message stops the node; contact information affects only the entry of the peer it comes from and leads to a dial only for a peer of the same network and version.", "quantifier": "every sequence of gossip messages from every peer, every node configuration", "why_tests_cant": "malformed messages of every kind in every order", "anchors": ["src/network/gossip.rs:1095-1255", "src/node/snapchain_read_node.rs:175-224", "src/node/snapchain_node.rs:268-292", "src/main.rs:624-664"]}
{"id": "C99", "title": "The view of connected peers is right and forced disconnects are justified and rate limited", "statement": "The sync actor's set of connected peers equals the peers with a live connection; the sweep disconnects a peer only if it is a direct peer that has been connected for 30 s without subscribing, and the same peer at most once per 60 s.", "quantifier": "every sequence of connections, disconnections and ticks at any times", "why_tests_cant": "overlapping connections and arbitrary timing", "anchors": ["src/network/gossip.rs:676-765", "src/network/gossip.rs:800-895", "src/consensus/malachite/read_sync.rs:285-315"]}
{"id": "C100", "title": "A submitted message is queued exactly if it passes, and the caller is told the truth", "statement": "A message submitted by RPC is handed to the mempool exactly if it names an account, the engine's trial run passes (at once, or after fetching a missing registered name within the budget), the chain checks hold and the channel takes it; the caller is told success exactly if the mempool accepted it; the recovery of a missing name hands over only transfers to that account and always ends.", "quantifier": "every node, every message, every sequence of trial-run outcomes, registry answer, clock and channel behaviour", "why_tests_cant": "the outcomes of the engine, the registry, the clock and the mempool interleave; tests fix one script", "anchors": ["src/network/server.rs: submit_message_internal, recover_missing_fname, submit_message_to_mempool, submit_message"]}
{"id": "C101", "title": "Names and contract signatures are checked on the right chain before they are queued", "statement": "A username proof, an .eth username or a contract verification is queued only if the chain the name belongs to resolves it to the proof's owner and that address is the account's custody address or verified by it, or the contract accepts the signature.", "quantifier": "every node state, chain answer and message", "why_tests_cant": "chain answers and store states are unbounded; the check is only made on one of the ways into the mempool", "anchors": ["src/network/server.rs: validate_ens_username_proof, validate_ens_username, resolve_ens_address, validate_contract_signature"]}
{"id": "C102", "title": "Bulk submission answers every message once and as single submission would", "statement": "Every message of a bulk request is answered exactly once; success means that the message passed the trial run with its account's other messages, the chain checks and the mempool; what an account is told depends on its own messages only.", "quantifier": "every request, every order of the hash maps, every trial-run semantics, every channel behaviour", "why_tests_cant": "hash map orders vary between runs; the shared batch couples accounts only for particular stores", "anchors": ["src/network/server.rs: submit_bulk_messages, simulate_bulk_messages_for_shard", "src/storage/store/engine.rs: simulate_bulk_messages"]}
{"id": "C103", "title": "A node answers with a name's current owner", "statement": "Asking a node for a name gives its current proof (or says that there is none), whatever the order of its shards; asking for an account's names lists each of them once.", "quantifier": "every history of transfers and proofs over any number of shards, every order of the shard map", "why_tests_cant": "the answer depends on a hash map order and on which shards saw which transfers", "anchors": ["src/network/server.rs: get_username_proof, get_user_name_proofs_by_fid", "src/mempool/mempool.rs: route_mempool_message"]}
{"id": "C104", "title": "Only configured users get in", "statement": "A call that needs credentials is served exactly to those who present a name and the password the configuration gives it; a node with configured credentials is closed to others; admin calls need admin credentials.", "quantifier": "every configuration string, every header, every decoder", "why_tests_cant": "the parsers meet arbitrary strings; a wrong configuration silently turns the check off", "anchors": ["src/network/rpc_extensions.rs: authenticate_request", "src/network/server.rs: MyHubService::new", "src/network/admin_server.rs"]}
{"id": "C105", "title": "The network picture accounts for every validator", "statement": "A crawl asks only connected validators other than the node itself; peers are marked as validators exactly if they are in the node's set, with the key of the set; every validator is the node itself, or answered and is among the nodes, or is listed once as out of reach with its key and the reason.", "quantifier": "every validator set, local view, gossip channel behaviour and every set of replies", "why_tests_cant": "one test with four nodes; the lost, surplus and lying answers are not exercised", "anchors": ["src/network/mesh/view.rs: classify_mesh_view", "src/network/mesh/crawl.rs: crawl_mesh", "src/network/gossip.rs: diagnostics requests"]}
{"id": "C106", "title": "A configured node replaces the known one", "statement": "The table of known nodes answers only with entries that carry the key asked for; the last configured entry is found by each of its keys; the entry it replaces is not found any more; an entry found by one of its keys is found by the other.", "quantifier": "every built-in table and every configuration", "why_tests_cant": "the tests replace one entry; overlaps between several entries are unbounded", "anchors": ["src/network/mesh/nodes.rs: NodeRegistry"]}
{"id": "C107", "title": "Browser addresses are public", "statement": "A node's HTTP address is that of the table unless it is offline, otherwise the address it is connected from unless that lies in a private, loopback, link-local, unspecified or broadcast block (also when mapped into IPv6).", "quantifier": "every IPv4 and IPv6 address, every table entry", "why_tests_cant": "2^128 addresses; tests sample 23", "anchors": ["src/network/mesh/nodes.rs: resolve_http_api_url, is_private_host, is_private_v4"]}
{"id": "C108", "title": "Contract signatures are what the wallet says", "statement": "A contract signature is valid exactly if the contract at the address answers the ERC-1271 question for this digest and signature with the magic value, or, without code there, the deployed helper answers 1; the question determines address, digest and signature; a claim is accepted exactly if its digest exists, the address has 20 bytes and the signature is valid; an unreachable chain is not the same as a forged claim; an ERC-6492 signature of a deployed wallet is accepted when its inner signature is.", "quantifier": "every chain behaviour, address, digest and signature", "why_tests_cant": "tests call one recorded contract; the chain's behaviour is unbounded", "anchors": ["src/core/validations/contract_signature.rs: verify_signature, reverts_mean_invalid", "src/core/validations/verification.rs: validate_verification_contract_signature"]}
{"id": "C109", "title": "Names hash as EIP-137 says and resolve through the registry", "statement": "The hash of a name is EIP-137's recursion over its labels; equal hashes mean equal names (without the variation selector) or a broken hash function; an address comes only from the resolver that the registry names for exactly this hash, which is not the zero address; a name without an address does not resolve.", "quantifier": "every name, hash function, registry and resolver", "why_tests_cant": "test vectors; names are unbounded", "anchors": ["src/connectors/onchain_events/ens.rs: namehash", "src/connectors/onchain_events/mod.rs: resolve_ens_name"]}
{"id": "C110", "title": "A shard is copied only from peers that have the snapshot", "statement": "Every address asked for data is the configured one or was announced and answered with the height being copied; no address is listed twice; a peer that failed is ignored for 30 minutes and nobody else is; the peer asked for a part of the trie is one of the addresses and stays the same for the part.", "quantifier": "every interleaving of contacts, tasks and answers, every answer", "why_tests_cant": "interleavings of spawned tasks and hostile contacts", "anchors": ["src/bootstrap/replication/peer_discovery.rs: handle_contact_info", "src/bootstrap/replication/rpc_client.rs: add_new_peer, get_peer_for_vts, new, close"]}
{"id": "C111", "title": "The heartbeat put in at start-up", "statement": "Reconciliation leaves a shard's block events alone or adds exactly the block shard's heartbeat with the next number; nothing stored changes; numbers stay without gaps; a second run changes nothing; a missing event gets filled.", "quantifier": "every pair of stores and every configured number", "why_tests_cant": "not tested", "anchors": ["src/utils/block_event_fix.rs: reconcile_heartbeat_events"]}
{"id": "C112", "title": "What a serving node says of its snapshots", "statement": "For a shard with data the answer lists every snapshot with its chunk, or fails as a whole; the copying node takes the highest; for shard 0 it is the block at the network's fixed height; parts of the trie above 255 are refused, not cut.", "quantifier": "every store content and request", "why_tests_cant": "tests serve one snapshot", "anchors": ["src/network/replication/replication_server.rs", "src/bootstrap/replication/rpc_client.rs: new"]}
{"id": "C113", "title": "Pages fetched ahead are the pages asked for", "statement": "A page is handed out for a part and a token only if a peer gave it for exactly these; with peers that always say the same the cache is invisible; an error fetched ahead is told once; a question fails only after the configured number of attempts.", "quantifier": "every sequence of requests and peer behaviour", "why_tests_cant": "order and failures of calls are unbounded", "anchors": ["src/bootstrap/replication/rpc_client.rs: get_shard_transactions, handle_response_and_spawn_next, call_get_shard_transactions_with_retry"]}
{"id": "C114", "title": "What the HTTP API shows is what is stored", "statement": "A message has a JSON form exactly if it has data and a body and all its enumerations are known; two messages with the same form differ at most in the signed bytes; a page shows all its messages in order with the token of the next page; every valid stored message can be shown; a list of events is answered when each of them can be shown, and one that cannot does not take the others down.", "quantifier": "every message, page, event list and base58 function", "why_tests_cant": "tests map a handful of well-formed messages; ill-formed ones in the event log are never tried", "anchors": ["src/network/http_server.rs: map_proto_message_to_json_message, map_proto_messages_response_to_json_paged_response, map_proto_hub_event_to_json_hub_event, get_events, submit_bulk_messages"]}
{"id": "C115", "title": "Tokens and hashes survive the query string", "statement": "A page token handed out is read back as it was, also when plus signs became spaces; different tokens are written differently; hashes are read with and without 0x and in either case of letters, and nothing else is read as a hash; event lists can be paged like the others.", "quantifier": "every token, hash and parameter string", "why_tests_cant": "tokens with plus signs and odd spellings of hashes are rare; all strings are unbounded", "anchors": ["src/network/http_server.rs: PagedRequest.to_proto and the other to_proto, serdebase64, serdehex, get_cast_by_id, get_events, EventsResponse"]}
{"id": "C116", "title": "Statuses tell who is at fault, headers are passed on", "statement": "200 is answered exactly to handled requests whose reply could be shown; 404 exactly to paths not in the table, which names no path twice; 500 exactly to the server's own faults; a submission's authorization header is forwarded unchanged or the request refused; the mesh query's last switch counts; topics shown are known ones and never none.", "quantifier": "every method, path, content type, body outcome, service answer, header and query string", "why_tests_cant": "failures of the service behind the API are not injected", "anchors": ["src/network/http_server.rs: Router::handle, handle_request, handle_protobuf_request, handle_mesh, from_status, submit_message", "src/network/mesh/render.rs: parse_topics"]}
{"id": "C117", "title": "An on-chain event says what the chain's log said", "statement": "A log is delivered exactly if it is complete, its block's time is known, it can be decoded, its numbers fit and its name is text; the event determines chain, block, transaction, position and payload of the log; accounts are never shortened; a transfer of the token whose number is a channel's label moves this channel; storage is rented for a year.", "quantifier": "every log, chain and sequence of answers about the block's time", "why_tests_cant": "tests decode a few logs with small numbers", "anchors": ["src/connectors/onchain_events/mod.rs: process_log, add_onchain_event, get_block_timestamp", "src/storage/store/account/onchain_event_store.rs: build_secondary_indices_for_channel_register"]}
{"id": "C118", "title": "Every log of a registry has its own place in the store", "statement": "An event's type is one its contract is about; two logs stored under one key are the same position of the same chain; so the logs of both chains, each taken once, have different keys, whatever their order; who holds an account was named by a log of the id registry and no later block says otherwise.", "quantifier": "every set of logs of the watched contracts on both chains, every order and grouping", "why_tests_cant": "needs two contracts with an equal event signature, or block numbers above 2^32", "anchors": ["src/connectors/onchain_events/mod.rs: process_log", "src/connectors/onchain_events/tier_registry_abi.json", "src/connectors/onchain_events/key_registry_abi.json", "src/storage/store/account/onchain_event_store.rs: make_onchain_event_primary_key, merge_onchain_event"]}
{"id": "C119", "title": "Every registry is watched, and a retry finds an account's logs", "statement": "Each contract is watched on its chain, once; with a channel controller configured its token contract is watched too or the node does not start; retrying an account asks for all its logs and no others.", "quantifier": "every configuration, chain answer and event", "why_tests_cant": "a contract that is not watched shows up as an event that never comes", "anchors": ["src/connectors/onchain_events/mod.rs: contracts, resolve_channel_registrar_token, run, retry_filters, retry_fid"]}
{"id": "C120", "title": "A gasless key has the same standing on every shard", "statement": "A data shard holds, of its own accounts, the keys as they stood on shard 0 after the block events it has taken, and none of other accounts; once it has taken them all, both shards give the same answer about a key, its account's count and custody counter; a message of the key is accepted or refused alike.", "quantifier": "every interleaving of key messages, block events and uses, every set of accounts of the shard, every registry state", "why_tests_cant": "tests run one engine; needs two shards, chain events between their blocks, and use of the key on only one", "anchors": ["src/storage/store/block_engine.rs: validate_user_message, merge_message, event generation", "src/storage/store/engine.rs: handle_block_event, validate_user_message, merge_message", "src/mempool/routing.rs: route_message", "src/storage/store/account/gasless_key_merge.rs", "src/storage/store/account/key_last_used_at_store.rs"]}
{"id": "C121", "title": "What the node tells about a signer is what it accepts", "statement": "A signer is told of exactly if its messages are looked at; a message of it passes exactly if the signer is on chain, or its type is among the scopes told and the block is not past the expiry told; the counters told are the ones the next key message is held against.", "quantifier": "every history of key messages and uses, every account, key, message type and block time", "why_tests_cant": "tests compare single fields of one record", "anchors": ["src/network/server.rs: resolve_signer, signer_from_gasless_record, get_signers_by_fid", "src/storage/store/account/active_key.rs", "src/storage/store/account/key_last_used_at_store.rs"]}
{"id": "C122", "title": "A block event given to a data shard reaches its store, or its absence is told", "statement": "An event in the store before the deadline is never taken for missing, whatever notifications were lost; the receiver is done with a block only if its last event was confirmed, or after a report; by then every event from the store's last to the block's last has been handed over and nothing that is not an event of the chain; the batch size bounds what is handed over between two looks at the store.", "quantifier": "every chain of shard 0, every sequence of readings, notifications and deadlines, every number of retries' outcomes", "why_tests_cant": "needs lost notifications, timeouts and slow stores in every order", "anchors": ["src/mempool/block_receiver.rs: wait_for_confirmation, confirmed_in_store, sync_missing_block_events, ensure_events_confirmed, run", "src/main.rs: block channel, spawn of BlockReceiver"]}
{"id": "C123", "title": "The channel reads agree on who owns a channel", "statement": "Every channel listed by account or by address is what GetChannelOwner answers for its key, whatever token or page size was sent; following the tokens lists exactly the channels owned through the account's verified addresses (or by the address), each once and in order; pages never exceed the request nor 1000; any bytes are a safe page token; the gate of the channel reads opens exactly for hashes of registered channels; the hints after a verification name the first channels of the address.", "quantifier": "every history of on-chain events, every set of other rows in the database, every set of verifications, every token and page size", "why_tests_cant": "needs every page boundary across addresses, foreign tokens and all neighbouring rows of the shared database", "anchors": ["src/network/server.rs: channel_infos_for_index_keys, channel_infos_by_owner_address, require_registered_channel, get_channel_owner, get_channels_by_address, get_channels_by_fid", "src/storage/store/account/onchain_event_store.rs: get_channel_keys_by_owner_address, get_channel_keys_for_owner_addresses", "src/storage/store/engine.rs: emit_channel_owner_hints_for_verification_capped"]}
{"id": "C124", "title": "What the node tells about an address is true", "statement": "The event told for an address is a stored event that names it as the new owner, and not-found is told exactly when no shard stores one, whatever was read, cached or dropped before; an address named by one event is always told that event. What an address is to an account (custody, auth, verified) is what the account's shard holds, in whatever order shards are walked. (False: that the address still owns the account; that two reads agree; that an auth address was not removed; that the answer is the same with the account's rows on two shards.)", "quantifier": "every history of on-chain events on any number of shards, every interleaving of reads and cache drops", "why_tests_cant": "the answer depends on which other addresses were asked for before, and on entries dropped in between", "anchors": ["src/network/server.rs: get_id_registry_on_chain_event, get_id_registry_on_chain_event_by_address, get_fid_address_type, id_registry_cache", "src/storage/store/account/onchain_event_store.rs: get_onchain_events, get_id_register_event_by_fid"]}
{"id": "C125", "title": "What a node tells about its chain and itself is what it stores", "statement": "GetBlocks and GetShardChunks give exactly the stored blocks of the range, each once and by number, the stop excluded, across every page boundary; GetInfo has one entry per shard with that shard's figures, its total of accounts is the number of accounts registered on the shards, and following GetFids gives the account of every stored registration. (False: that the stream stops when the client leaves; that the delay told is sensible when the clock is behind the newest block of shard 0; that an empty page or a missing token of GetFids means the end.)", "quantifier": "every history of commits and prunings, every range, every point where the client leaves, every history of on-chain events on any shards", "why_tests_cant": "needs every page boundary, every pruning point inside the range and clocks behind the chain", "anchors": ["src/network/server.rs: get_blocks, get_shard_chunks, get_info, get_fids", "src/storage/store/block.rs: get_blocks_in_range, max_block_timestamp", "src/storage/store/shard.rs: get_shard_chunks", "src/storage/store/account/onchain_event_store.rs: get_fids"]}
{"id": "C126", "title": "Blocks are chained by the hash of their parent", "statement": "The block numbers stored are exactly 1 to the last and a stored block stays; every block of a correct proposer names the hash of the block before it (the first one names the fixed genesis bytes) and carries the hash of its own header; two chains of blocks of correct proposers with the same last hash have the same headers, or a collision of the hash function is among them. (False: that a node checks the parent or the hash field of a proposed block; so with one incorrect proposer two different histories can end in the same block, and correct proposers go on from whatever hash was claimed.)", "quantifier": "every sequence of decided blocks of correct and other proposers, every hash function, every validation of the remaining fields", "why_tests_cant": "needs all histories and all forged headers, and a statement about all hash functions", "anchors": ["src/consensus/proposer.rs: propose_value, add_proposed_value, GENESIS_MESSAGE", "src/storage/store/shard.rs: get_last_shard_chunk, max_block_number, put_shard_chunk", "src/storage/store/block.rs: get_last_block, max_block_number, put_block"]}
{"id": "C127", "title": "What the node tells about a channel is the last accepted message about each thing", "statement": "For a registered channel the member read tells the state and time of the last accepted message about the account and none if there is none; following the pages of the member, membership and moderation listings, whatever the page size and direction, gives every account, channel or cast that has an accepted message exactly once and in order, in the state of the last one, or with a filter those in that state; the list and the single read agree; the pin is the last accepted one unless it is empty; the settings are those of the last accepted update alone, with unset modes told as members-only and by approval, and are told open exactly when admission treats the channel as open; an unregistered channel is told nothing. (False: that the filter NONE lists nobody, it lists everybody; removed, banned and lifted entries are listed, and memberships are listed for unregistered channels too.)", "quantifier": "every history of channel messages with distinct hashes, every page size, direction and filter, every registration predicate", "why_tests_cant": "needs all histories and all page sizes, and the agreement of two indexes after every history", "anchors": ["src/network/server.rs: get_channel_member, get_channel_members, get_channel_memberships_by_fid, get_channel_pin, get_channel_moderations, get_channel_metadata, channel_page_options", "src/storage/store/account/channel_store.rs: members_by_channel, memberships_by_fid, moderations_by_channel, get_slot_message"]}
{"id": "C128", "title": "The follow rows are exactly the likes of channels", "statement": "After every history of merged, removed, pruned and revoked reactions, an account is told to follow a channel since a time exactly if the last word on its like of the channel's one spelling is an accepted like of that time, merged when follows were switched on; recasts, likes of casts and likes of other strings never matter; both directions of the index tell the same, page by page, each once and in order; the follower count is the number of followers listed and the total is the sum over the shards; without a registrar nothing is followed. (False: that every stored like of a channel is a follow; one merged before the activation stays unlisted until the account likes anew.)", "quantifier": "every history of reactions of any accounts, any acceptance of each merge, any activation at each merge, every registrar and hash function, every page size and direction", "why_tests_cant": "needs all histories and interleavings of several kinds of reaction with the same account and channel, and all page sizes", "anchors": ["src/storage/store/account/reaction_store.rs: build_follow_index, delete_follow_index, follow_channel_id, insert_follow, remove_follow, follow_page, followers_by_channel, follows_by_fid, follower_count, is_following", "src/storage/store/account/store.rs: put_add_transaction, delete_add_transaction, FollowIndexGate", "src/network/server.rs: get_channel_follower_count, get_channel_follows, is_following_channel"]}
{"id": "C129", "title": "What the node tells about a node of the trie is the committed set", "statement": "For every prefix of at most five bytes, the trie metadata read tells the number of committed keys below the prefix and the hash that is a function of those keys alone, and lists exactly the next nibbles that occur, each once, with the number and hash of the keys below it; it never fails for a prefix below which there are committed keys, keys of an open transaction do not show, and a prefix without keys is not found (but the empty one). (False: that the prefix told for a child can be asked again; it is spelled in nibbles and read as bytes.)", "quantifier": "every history of inserts, deletes, commits and rollbacks, every hash function, every prefix of at most five bytes", "why_tests_cant": "needs all histories and all prefixes, and a missing child would only show after a particular history", "anchors": ["src/storage/trie/merkle_trie.rs: get_trie_node_metadata, get_node, get_node_from_txn_or_db", "src/network/server.rs: get_trie_metadata_by_prefix"]}
