{"claims": [
 {"property": "C01", "status": "proved", "theorems": ["C01_event_id_determines_position", "C01_event_id_order", "C01_feed_order", "C01_block_ids", "C01_blocks_disjoint"], "note": ""},
 {"property": "C02", "status": "proved", "theorems": ["C02_message_key_unique", "C02_scan_isolated", "C02_prefix_scan_exact", "C02_scan_order", "C02_increment_value"], "note": "For fids below 2^32. C02_wide_fid_refuted and the two C02_prefix_scan_*_refuted theorems show what happens outside the stated ranges."},
 {"property": "C03", "status": "proved", "theorems": ["C03_trie_key_unique", "C03_trie_key_prefix_free", "C03_trie_key_decode", "C03_nibbles"], "note": "C03_wide_type_refuted: a message type above 31 would break it (the enum stops at 21)."},
 {"property": "C04", "status": "proved", "theorems": ["C04_page_token_roundtrip", "C04_page_token_canonical"], "note": ""},
 {"property": "C05", "status": "partial", "theorems": ["C05_trie_is_a_set", "C05_misdirected_delete_refuted", "C03_nibbles"], "note": "Proved for every history whose keys satisfy no_misdirected_delete; false without it: a delete can follow a path with a repeated prefix and drop an unrelated key (C05_misdirected_delete_refuted)."},
 {"property": "C06", "status": "proved", "theorems": ["C06_root_is_function_of_set", "C06_same_set_same_root"], "note": "Under history_ok (see C05, C08)."},
 {"property": "C07", "status": "partial", "theorems": ["C07_prefix_count", "C07_prefix_count_committed", "C07_count_in_transaction_refuted", "C07_long_prefix_refuted", "C07_listing", "C07_listing_complete", "C07_listing_empty", "C07_listing_long_prefix_refuted", "C07_listing_phantom_refuted", "C07_lost_node_refuted"], "note": "Exact for committed state and prefixes up to 6 bytes; refuted inside an open transaction and for longer prefixes. Listing: exact for prefixes up to 6 bytes, cut only after 1024 keys; refuted for longer prefixes and for the empty trie (lists one empty key)."},
 {"property": "C08", "status": "partial", "theorems": ["C08_commit_reload_transparent", "C08_rollback", "C08_empty_commit_refuted"], "note": "Refuted for the commit that deletes the last key: the reload fails."},
 {"property": "C09", "status": "proved", "theorems": ["C09_equal_roots", "C09_key_lengths"], "note": ""},
 {"property": "C10", "status": "partial", "theorems": ["C10_batch_insert_count", "C10_flags_refuted"], "note": "The number of set flags is exact; the position is not when a key occurs twice in the batch."},
 {"property": "C100", "status": "partial", "theorems": ["C100_queued_iff", "C100_told_iff", "C100_error_after_handover", "C100_transfers", "C100_same_error", "C100_ends", "C100_status", "C100_error_but_queued_refuted", "C100_stale_transfer_refuted", "C100_internal_unknown_refuted", "C100_engine"], "note": "Proved: exact conditions for hand-over and success, content of the recovery, its termination, the status mapping. Refuted parts: an error answer does not mean the message is not queued (lost or late acknowledgement); recovery hands over stale transfers although the comment says only the latest; internal-state errors are reported as UNKNOWN."},
 {"property": "C101", "status": "partial", "theorems": ["C101_checked", "C101_proof_iff", "C101_gossip_refuted"], "note": "Proved for messages submitted by RPC, with the exact condition. Refuted for the mempool as a whole: gossiped messages are not checked against the chains."},
 {"property": "C102", "status": "partial", "theorems": ["C102_answers", "C102_sound", "C102_only", "C102_together_iff", "C102_alone", "C102_order_free", "C102_single_agrees", "C102_shard0_refuted", "C102_no_recovery_refuted", "C102_order_refuted", "C102_sibling_refuted", "C102_order_dependent_refuted"], "note": "Proved: one answer each, soundness, independence of accounts and orders when accounts do not see each other's writes, agreement with single submission for one message. Refuted: answers are not in request order, shard 0 is always refused, no recovery of names, a bad sibling refuses a good message, and a refused account's claim to a name keeps another account out depending on the hash map's order."},
 {"property": "C103", "status": "partial", "theorems": ["C103_some_shard", "C103_not_found", "C103_stable_iff", "C103_fname_current", "C103_eth_current", "C103_by_fid", "C103_by_fid_fails", "C103_copies_refuted", "C103_two_owners_refuted", "C103_old_routing_refuted", "C103_released_refuted", "C103_error_hidden_refuted"], "note": "Proved: exact condition for an order-independent answer; registered names under the routing fix and .eth names proved on one shard answer with the newest proof. Refuted: .eth names have one owner per shard, so the answer depends on the map's order; transfers before the routing fix leave stale owners; released names answer with account 0; names are listed once per shard; store errors are hidden."},
 {"property": "C104", "status": "partial", "theorems": ["C104_accepts_iff", "C104_open_iff", "C104_open_to_all", "C104_fail_open_refuted", "C104_colon_shut_out", "C104_gated", "C104_admits", "C104_admin_open_refuted", "C104_mesh_open_refuted", "C104_debug_ok_refuted", "C104_debug", "C104_reads"], "note": "Proved: exactly who is let in for every configuration and header, and which calls ask. Refuted: a password with a colon as the only entry turns authentication off; admin retries never ask for credentials; mesh diagnostics are open without admin credentials; debug submissions report success although the mempool refused."},
 {"property": "C105", "status": "partial", "theorems": ["C105_peers", "C105_queries", "C105_bounded", "C105_partition", "C105_served", "C105_dropped_refuted", "C105_claims_refuted", "C105_limit_refuted", "C105_self"], "note": "Proved when the gossip task takes every request and the set has at most 256 validators (C105_partition). Refuted otherwise: a validator whose request is not taken is in no list; validators past the 256th are called not connected; an answer's claims about its sender (peer id, being a validator) are not compared with the peer asked."},
 {"property": "C106", "status": "partial", "theorems": ["C106_sound", "C106_last", "C106_last_pid", "C106_both_keys", "C106_replaced", "C106_empty", "C106_half_refuted", "C106_erased_refuted"], "note": "Proved for configurations in which no entry carries the key of one known node and the peer id of another. Refuted without that: a node is then known under one key and another node under its other key (documented in the code), and a later entry can make a configured entry unknown by its own peer id (not documented)."},
 {"property": "C107", "status": "partial", "theorems": ["C107_private", "C107_url", "C107_others_refuted"], "note": "Proved for the blocks the code names. Refuted for its comment's claim that every unreachable address is left out: carrier-grade NAT, 240.0.0.0/4 and the rest of 0.0.0.0/8 are offered."},
 {"property": "C108", "status": "partial", "theorems": ["C108_question", "C108_words", "C108_valid_iff", "C108_failures", "C108_claim", "C108_unreachable_refuted", "C108_chain_cut_refuted", "C108_wrapped_refuted", "C108_no_verdict_iff"], "note": "Proved for the model except: any failure to ask the chain is reported as a bad signature (unreachable_refuted); chain ids are cut to 16 bits in the digest (chain_cut_refuted); ERC-6492 wrapped signatures of deployed wallets are not unwrapped (wrapped_refuted)."},
 {"property": "C109", "status": "partial", "theorems": ["C109_eip137", "C109_empty", "C109_all", "C109_labels_binding", "C109_binding", "C109_selector_refuted", "C109_root_refuted", "C109_resolve", "C109_unset_refuted"], "note": "Hash and resolution proved; refuted: two spellings with the variation selector share a hash by design but a name of selectors only is not the root (root_refuted), and a name without an address resolves to the zero address (unset_refuted)."},
 {"property": "C11", "status": "proved", "theorems": ["C11_read_own_writes", "C11_commit_as_seen", "C11_merge_sequential", "C11_write_order_irrelevant"], "note": "The batch is a map from key to put or delete; RocksDB itself is assumed to apply a write batch atomically. C11_write_order_irrelevant covers the arbitrary HashMap iteration order of commit."},
 {"property": "C110", "status": "partial", "theorems": ["C110_holders", "C110_grow", "C110_address", "C110_cooldown", "C110_one_by_one_partial", "C110_twice_refuted", "C110_unfit_refuted", "C110_silenced_refuted", "C110_pick", "C110_pick_start", "C110_turns", "C110_down_refuted", "C110_closed_refuted"], "note": "Holders, growth, address choice, cooldown and stickiness proved for all interleavings. Refuted: duplicates under concurrent contacts (twice_refuted; one_by_one_partial is the sequential case), peers without the height are asked again at once (unfit_refuted), claimed peer ids let anyone silence a peer (silenced_refuted), no failover (down_refuted), panic after close (closed_refuted)."},
 {"property": "C111", "status": "partial", "theorems": ["C111_next", "C111_kept", "C111_gapless", "C111_filled", "C111_hole_refuted", "C111_panic"], "note": "All proved except filling: only the number after the greatest is ever filled (hole_refuted)."},
 {"property": "C112", "status": "partial", "theorems": ["C112_snapshots", "C112_all_or_nothing", "C112_highest", "C112_shard0", "C112_genesis_refuted", "C112_part"], "note": "All proved except: a serving node without the fixed block answers height 0 instead of refusing (genesis_refuted)."},
 {"property": "C113", "status": "partial", "theorems": ["C113_faithful", "C113_transparent", "C113_again", "C113_retries", "C113_zero_refuted"], "note": "All proved; with max_rpc_retries = 0 the first question panics (zero_refuted)."},
 {"property": "C114", "status": "partial", "theorems": ["C114_shown_iff", "C114_same_json", "C114_signed_bytes_refuted", "C114_page", "C114_page_fails_refuted", "C114_valid_shown", "C114_valid_not_shown_refuted", "C114_event_iff", "C114_events", "C114_events_fail_refuted", "C114_failure_event_refuted", "C114_bulk", "C114_empty_embed_refuted", "C114_fields", "C114_event_same", "C114_event_fault"], "note": "Mapping characterised exactly and shown to lose only data_bytes. Refuted as stated: one unshowable message panics a whole page (C114_page_fails_refuted) or event list (C114_events_fail_refuted), and the event log does contain such messages, because a failed merge logs the message as received (C114_failure_event_refuted; C114_ex_bodyless_valid is a validly signed one); bulk answers fail as a whole (C114_bulk). JSON serialisation itself is not modelled."},
 {"property": "C115", "status": "partial", "theorems": ["C115_base64", "C115_base64_reads_bytes", "C115_token", "C115_token_distinct", "C115_last_page_restarts", "C115_events_token_refuted", "C115_either", "C115_hash_read", "C115_strip_only", "C115_hash_lax_refuted", "C115_hash_absent"], "note": "Tokens round trip; refuted: the events reply does not carry the next token (C115_events_token_refuted), and two of the three hash readers accept 0x inside or repeated (C115_hash_lax_refuted)."},
 {"property": "C116", "status": "partial", "theorems": ["C116_routes_distinct", "C116_success", "C116_not_found", "C116_graded", "C116_ungraded_refuted", "C116_broken_body_refuted", "C116_mesh", "C116_forward_submit", "C116_forward_mesh", "C116_mesh_query", "C116_topics"], "note": "Refuted as stated: all but the ten channel queries answer 400 to the server's own faults (C116_ungraded_refuted), and a broken body is 400 on one submission path and 500 on the other (C116_broken_body_refuted). The rest holds."},
 {"property": "C117", "status": "partial", "theorems": ["C117_timestamp", "C117_sent_iff", "C117_ignored_iff", "C117_faithful", "C117_account", "C117_names", "C117_transfer_moves", "C117_rent_expiry", "C117_rent_expiry_refuted", "C117_rented", "C117_subscribed"], "note": "Holds but for rents: the expiry is cut to 32 bits, so from a year before 2106-02-07 on it lies in the past (C117_rent_expiry_refuted). ABI decoding is a parameter."},
 {"property": "C118", "status": "partial", "theorems": ["C118_attributed", "C118_tier_migration_refuted", "C118_own_place", "C118_distinct", "C118_custody_from_logs", "C118_wrap_refuted"], "note": "Refuted as stated: the tier registry on Base has an event Migrated(uint256) with the key registry's signature, and it is delivered as a signer migration (C118_tier_migration_refuted); block numbers are cut to 32 bits, and of two logs 2^32 blocks apart the store refuses the second (C118_wrap_refuted). Without these two the property holds (C118_own_place, C118_distinct), which is what C26, C58 and C60 assume."},
 {"property": "C119", "status": "partial", "theorems": ["C119_both_watched", "C119_half_watched_refuted", "C119_fixed", "C119_retry_refuted"], "note": "Refuted as stated: retrying an account does not ask for changed recovery addresses and keys reset by the administrator (C119_retry_refuted, exact); before activation a controller may be watched without its token and this is not looked at again (C119_half_watched_refuted)."},
 {"property": "C12", "status": "proved", "theorems": ["C12_filtered", "C12_limited", "C12_channel", "C12_owners", "C12_prefix_range", "C12_delete_range", "C12_prune_events", "C12_checked_token", "C12_foreign_token_refuted", "C12_owners_size0_refuted"], "note": "Every page size in the message, block and channel listings. Findings: most listings use the page token unchecked, so a token of another prefix leaks rows of that prefix (C12_foreign_token_refuted; the channel listings check it, C12_checked_token); the listing across owners returns nothing for page size 0."},
 {"property": "C120", "status": "partial", "theorems": ["C120_lagging", "C120_same_standing", "C120_dropped", "C120_dropped_refuted", "C120_zero_clock", "C120_two_clocks_refuted", "C120_direct_refuted", "C120_one_place", "C120_direct_wellformed"], "note": "Proved if each block event finds the account as shard 0 found it (agreed). Refuted otherwise: an account transferred between the two blocks leaves the key dropped on the data shard for good (C120_dropped, C120_dropped_refuted). Each shard keeps its own record of use, so a key in daily use on one is expired on the other (C120_zero_clock, C120_two_clocks_refuted). A data-shard proposer can include a key message directly (C120_direct_refuted)."},
 {"property": "C121", "status": "partial", "theorems": ["C121_found_iff", "C121_told_is_so", "C121_not_found", "C121_fields", "C121_custody_counter", "C121_expired_refuted", "C121_zero_refuted", "C121_app_counter_refuted", "C121_wrap_refuted", "C121_app_counter_told"], "note": "Proved for the account's shard. Refuted: expired keys are told of as active; shard 0 does not keep to the expiry told; the app's counter told lacks revocations of other shards' accounts; an account number above 2^32 is told to have another's keys."},
 {"property": "C122", "status": "partial", "theorems": ["C122_confirmed_seen", "C122_no_false_miss", "C122_timeout_real", "C122_no_silent_gap", "C122_as_without_waiting", "C122_all_handed_over_partial", "C122_genuine", "C122_batch_refuted", "C122_batch", "C122_batch_zero_refuted", "C122_lag_refuted", "C122_unread_refuted"], "note": "Waiting, reporting and genuineness proved for all looks. All events handed over under the hypotheses of C38_receive_complete_partial (honest event lists, certificates for every block, nothing pruned). Refuted: the batch size bounds nothing when blocks hold two events (C122_batch_refuted; it does for one event per block, C122_batch); a batch size of zero, more waiting blocks than the channel holds, and a failed reading at the start end the receiver for good."},
 {"property": "C123", "status": "partial", "theorems": ["C123_by_fid_true", "C123_by_address_true", "C123_page_bound", "C123_by_fid_complete", "C123_by_address_complete", "C123_by_fid_any_token", "C123_by_address_token_refuted", "C123_by_address_answers", "C123_bad_address", "C123_size_zero_refuted", "C123_pruned_refuted", "C123_registered", "C123_hints", "C123_hints_bounded"], "note": "Proved: nothing false listed, completeness, order, page bounds, registration gate, hints. Refuted as stated for GetChannelsByAddress: its page token is not checked, so a token below a short row of the database makes the handler panic and one below other rows makes it fail (C123_by_address_token_refuted); with tokens of the address it always answers (C123_by_address_answers). Also refuted: page size 0 reads as a finished list; a verification pruned from the account's shard hides channels GetChannelOwner still gives to the account."},
 {"property": "C124", "status": "partial", "theorems": ["C124_genuine", "C124_not_found", "C124_one_owner", "C124_former_owner_refuted", "C124_told_again_refuted", "C124_by_fid", "C124_first_shard", "C124_custody", "C124_auth_ever", "C124_verified", "C124_repeat_refuted", "C124_empty_address_refuted", "C124_auth_removed_refuted", "C124_two_shards_refuted", "C124_oldest_told"], "note": "Proved: answers are genuine stored events, not-found is exact, single owner always told, flags exact when one shard holds the account. Refuted as read: a former owner is told for ever (no later event or cache drop takes it away; a cached answer is repeated whatever the chain does), the same question is answered differently after another read, a change of recovery address is told for the empty address, a removed auth address is still told as one, and with rows on two shards the flags depend on the order of the walk. An address that is not in the cache is told the oldest event of the lowest account on the first shard storing one (C124_oldest_told)."},
 {"property": "C125", "status": "partial", "theorems": ["C125_blocks", "C125_gone_client_refuted", "C125_chunks", "C125_other_shard", "C125_clock_refuted", "C125_info", "C125_accounts", "C125_total_accounts", "C125_fids", "C125_fids_empty_page_refuted", "C125_fids_error_refuted"], "note": "Proved: block and chunk reads are exact for every range and history, info entries and totals are right, GetFids is complete. Refuted as read: a client that left does not stop the stream (the whole range is still read); a clock behind the newest block of shard 0 makes GetInfo panic in checked builds and tell a delay near 2^64 otherwise, while the other shards tell 0; a page of GetFids can be empty with more to follow, and a read error is told as the end."},
 {"property": "C126", "status": "partial", "theorems": ["C126_no_gaps", "C126_kept", "C126_own_linked", "C126_linked", "C126_tip_names_history", "C126_parent_checked_refuted", "C126_claimed_hash_named", "C126_height_unchecked_refuted", "C126_same_tip_refuted"], "note": "Chaining by correct proposers is proved for every history and every hash function. That a node only takes blocks naming their predecessor is false as the code stands: add_proposed_value looks at neither parent_hash nor the hash field (C126_parent_checked_refuted, C126_claimed_hash_named, C126_same_tip_refuted); a proposal is built on the last stored block at whatever height it is asked for (C126_height_unchecked_refuted)."},
 {"property": "C127", "status": "partial", "theorems": ["C127_member", "C127_members", "C127_members_agree", "C127_filter_none_refuted", "C127_memberships", "C127_pin", "C127_moderations", "C127_metadata", "C127_unregistered", "C127_numbers", "C127_requests"], "note": "Proved except for the listed false claim: the filter value NONE is served as no filter (C127_filter_none_refuted). Rows are slots of Channel.v's state; identifiers are byte strings (typed)."},
 {"property": "C128", "status": "partial", "theorems": ["C128_is_following", "C128_follows", "C128_followers", "C128_stored", "C128_total", "C128_no_registrar", "C128_before_activation_refuted"], "note": "Proved except for the listed false claim (C128_before_activation_refuted); C128_stored proves it when follows were switched on at every merge. Merge acceptance is any boolean; fids and times are 32 bits (fits)."},
 {"property": "C129", "status": "partial", "theorems": ["C129_meta", "C129_child_prefix_refuted"], "note": "Proved for prefixes of at most five bytes and the usual trie history conditions (history_ok, as in C05); the claim that a child's told prefix can be asked again is refuted (C129_child_prefix_refuted)."},
 {"property": "C13", "status": "proved", "theorems": ["C13_replicas_converge", "C13_two_signers_refuted", "C13_compact_same_time_refuted", "C13_compact_sweeps_tombstone_refuted"], "note": "Equality of the whole store (rows, tombstones, all indexes) for any two merge histories with the same messages, any order, repetition and block boundaries, for casts, links, reactions, user data, verifications and loans. Messages are assumed identified by author and hash (pairwise identified). Without it (same content signed by two keys) and with link compact states (not part of the property) convergence fails: three refutations."},
 {"property": "C14", "status": "proved", "theorems": ["C14_stored_iff_greatest", "C14_subject_held", "C14_one_per_subject", "C14_refused_untouched", "C14_url_cast_collision_refuted", "C14_padded_type_collision_refuted"], "note": "Subjects are compared through the message content, not the key; outside the stated field ranges (plain) two subjects can share a key: two refutations. one_per_subject and refused_untouched also cover prunes, revocations and compact states."},
 {"property": "C15", "status": "proved", "theorems": ["C15_removed_cast_never_returns", "C15_replicas_agree", "C15_pruned_tombstone_refuted", "C15_revoked_tombstone_refuted", "C15_mistyped_add_refuted"], "note": "Histories of adds and removes as stated. Beyond them (eviction or revocation of the tombstone, messages whose type does not match their body) a cast can return or vanish: three refutations."},
 {"property": "C16", "status": "proved", "theorems": ["C16_duplicate_harmless", "C16_duplicate_compact_state"], "note": "For links under a compact state the refusal may carry the compact-state error instead of the duplicate error; the state is unchanged in all cases."},
 {"property": "C17", "status": "partial", "theorems": ["C17_indexes_agree", "C17_prune_of_superseded_refuted", "C17_revoke_of_superseded_refuted"], "note": "Proved for every history whose prunes, revocations and compact states do not meet a committed message superseded in the open transaction (boolean hypothesis fine). False in general: range scans read committed state while writes go to the transaction; two refutations."},
 {"property": "C18", "status": "partial", "theorems": ["C18_compact_state_effect", "C18_stored_links_respect_compact_state", "C18_contradicting_merge_refused", "C18_older_compact_state_refused", "C18_pending_link_refuted", "C18_equal_time_refuted", "C18_unscoped_refuted"], "note": "Proved on committed state with type-scoped compaction, for additions strictly older than the compact state. Refuted: equal timestamp accepted later, links pending in the same block, behaviour before the BlockLinks feature."},
 {"property": "C19", "status": "partial", "theorems": ["C19_prune_oldest_first", "C19_ends_within_limit", "C19_pending_not_pruned_refuted", "C19_compact_states_stay_refuted"], "note": "Proved when the account's set is committed and the count passed in is the number stored; refuted for messages pending in the same block and for compact states, which count but are never evicted."},
 {"property": "C20", "status": "partial", "theorems": ["C20_revoke_exact", "C20_nothing_left", "C20_pending_not_revoked_refuted", "C20_compact_state_stays_refuted", "C20_username_proof_refuted"], "note": "Exact effect proved for committed messages; messages pending in the same block and link compact states stay: two refutations. Username proofs are not swept by a revocation (stores.rs:612-672): refuted."},
 {"property": "C21", "status": "partial", "theorems": ["C21_one_owner", "C21_order_irrelevant", "C21_accepted_iff", "C21_history_partial", "C21_deletes_first_partial", "C21_deletion_effect_partial", "C21_takeover_prune_refuted", "C21_renew_prune_refuted", "C21_no_dangling_name"], "note": "Proved in full for all histories of merges by any accounts (the property's quantifier): one holder per name, the newest proof, order irrelevant, by-name and by-account views agree. With prunes it holds (signer revocations do not touch username proofs, see C20) for blocks in which no deletion meets a name already taken over in the same block; otherwise it is false (two refutations: the scans read the committed state and delete the by-name row of the new holder). One shard."},
 {"property": "C22", "status": "partial", "theorems": ["C22_name_latest", "C22_order_irrelevant_partial", "C22_account_sound", "C22_account_complete_partial", "C22_trie_exact_partial", "C22_renewal_refuted", "C22_two_names_refuted", "C22_order_refuted"], "note": "The name lookup is proved for all sequences; the by-account lookup is always sound. Completeness of the by-account lookup and of the trie is false after renewals and for accounts with several names (refuted), proved without them."},
 {"property": "C23", "status": "partial", "theorems": ["C23_conservation_partial", "C23_block_partial", "C23_history_partial", "C23_last_unit_stays", "C23_expiry_wraps_refuted", "C23_loan_outlives_rent_refuted", "C23_repeated_rent_refuted", "C23_two_transactions_refuted"], "note": "False of the code once rents expire: an account whose rent expired partly while lent has 2^32 - k active units, and a borrower keeps a loan after every rent behind it expired; a re-delivered rent event or two transactions of one account in a block lend more than is rented. Proved: in every state where accounts still rent what they lent nothing wraps, each account may use own - lent + borrowed and all accounts together exactly what is rented; blocks with one transaction per account and new rent events keep that, hence all histories without expiry (total per class below 2^32)."},
 {"property": "C24", "status": "partial", "theorems": ["C24_limits_partial", "C24_no_units", "C24_overflow_refuted"], "note": "Exact and monotone for up to 858993 units; the u32 product wraps above (refuted)."},
 {"property": "C25", "status": "partial", "theorems": ["C25_cohort_partial", "C25_class_monotone", "C25_extension_postpones", "C25_own_timestamp_only_refuted", "C25_later_expires_later_refuted", "C25_far_future_refuted"], "note": "Class and expiry are those of the cohort table and a rent is active exactly before its expiry, when the expiry fits 32 bits. The expiry also depends on the engine version at which it is looked at (refuted as stated; newer versions only postpone), a later rent can expire earlier, and from 2105 the expiry wraps."},
 {"property": "C26", "status": "partial", "theorems": ["C26_active_is_latest_partial", "C26_latest_decides_partial", "C26_order_irrelevant_partial", "C26_chain_order_partial", "C26_same_block_refuted", "C26_reset_batching_refuted", "C26_late_removal_refuted"], "note": "False as stated: within one block arrival order decides, resets depend on which transaction the Add was in, and after a reset a late older removal takes effect (three refutations). Proved: without resets and with one event per key and block the order and grouping do not matter; in chain order the last event decides, resets before it included."},
 {"property": "C27", "status": "proved", "theorems": ["C27_one_owner", "C27_owner_is_last_accepted", "C27_removal_clears"], "note": "All histories of adds, removes and uses by all accounts, any cryptography, any on-chain state per step."},
 {"property": "C28", "status": "partial", "theorems": ["C28_counter_strictly_increases", "C28_no_replay", "C28_self_revocation_counter", "C28_app_counter_exhausted", "C28_self_revocation_replay_refuted"], "note": "Holds for custody-signed additions and removals. For self-revocations it holds per requesting app only: after re-registering the key through another app an old self-revocation is accepted again (refuted). One self-revocation with counter 2^32-1 ends self-revocation for that app."},
 {"property": "C29", "status": "proved", "theorems": ["C29_count_exact_and_bounded", "C29_cap_only_for_new"], "note": "All histories."},
 {"property": "C30", "status": "proved", "theorems": ["C30_admission", "C30_use_never_shortens", "C30_expired_stays_expired", "C30_granted_scopes", "C30_onchain_unconfined", "C30_readd_shortens_refuted"], "note": "Iff-characterisation of admission; use never lowers the recorded time; expired keys stay expired. Noted: re-submitting the addition may lower it; a key that is also an on-chain signer is not confined."},
 {"property": "C31", "status": "proved", "theorems": ["C31_member_action", "C31_other_actions", "C31_moderators_appointed_by_owner", "C31_ban_until_lifted", "C31_authority_exact", "C31_effect"], "note": "All histories, changing owners, parked channels. Hypothesis history_ok: messages are identified by author, time and hash."},
 {"property": "C32", "status": "proved", "theorems": ["C32_moderators", "C32_member_slots", "C32_moderation_slots", "C32_refused_changes_nothing"], "note": "Counters equal the number of accounts/casts the read functions report, with the caps 10, 8192, 16384."},
 {"property": "C33", "status": "proved", "theorems": ["C33_slot_shows_last_accepted", "C33_only_shown_messages_stored", "C33_replica_agrees"], "note": "Includes the author index, by-account index and replay on data shards."},
 {"property": "C34", "status": "partial", "theorems": ["C34_counts_exact_partial", "C34_admission_bounds_partial", "C34_lifetime_bound_partial", "C34_rows_permanent", "C34_can_always_remove_partial", "C34_tombstones_refuted", "C34_foreign_message_refuted", "C34_remove_wins_tie"], "note": "Counters used for admission equal the real numbers and the replay never aborts, for transactions whose messages belong to the transaction's account. Live verifications never exceed the largest limit seen; rows never exceed limit plus tombstone cap. The tombstone part as stated is false (removes of existing rows are admitted past the cap by design: 257 tombstones at cap 256). A proposer who puts another account's messages in a transaction bypasses the quota or aborts the replay (refuted witnesses)."},
 {"property": "C35", "status": "partial", "theorems": ["C35_history_irrelevant", "C35_accepted_partial", "C35_accepted_same_order", "C35_order_refuted", "C35_zero_history_irrelevant", "C35_zero_accepted", "C35_zero_exhausted", "C35_zero_unfixed_refuted"], "note": "Data shards. Validation depends on the committed state and the proposal alone (C35_history_irrelevant), and an honest proposal is accepted by every node with the same committed state when both iterate hash sets alike (C35_accepted_same_order, unconditional) or, in any iteration orders, when the block does not run out of event ids and the per-account tails touch disjoint keys (C35_accepted_partial). False without the id condition: C35_order_refuted. The per-message store effects are an arbitrary function (env) of time, view, account and content. Shard 0: proved without condition for versions before 9 and from 12 on (id_safe); for versions 9-11 the id generator was never restarted and C35_zero_unfixed_refuted shows an honest block rejected after abandoned proposals."},
 {"property": "C36", "status": "partial", "theorems": ["C36_cached_is_replay_partial", "C36_cached_any_order_partial", "C36_root_is_header", "C36_unconfirmable_refuted", "C36_late_decision_refuted", "C36_failed_validation_refuted", "C36_zero_commit", "C36_zero_root_is_header"], "note": "Data shards. True when the chunk committed is the one validated last (exactly, in the same iteration order; up to the order of events in any other). Every commit, however cached, leaves a trie with the root of the header. False as stated: the cache is keyed by shard root only, so another proposal with the same root is committed instead (C36_late_decision_refuted); a failing validation of another proposal uses up the ids and the commit of the cached one panics (C36_failed_validation_refuted); a valid block with more than 16383 events can be committed by nobody (C36_unconfirmable_refuted, for all such blocks). Shard 0: proved (id_safe versions); shard 0 has no cached transaction."},
 {"property": "C37", "status": "partial", "theorems": ["C37_before_write_partial", "C37_between_writes_partial", "C37_wedge", "C37_wedge_refuted", "C37_zero_before_write", "C37_zero_wedge", "C37_zero_wedge_refuted", "C37_zero_empty_partial"], "note": "Data shards. Stopping before the batch is written is harmless. Stopping between the write of the batch and that of the chunk: repeating the commit succeeds with the same rows and trie when every message is then rejected and the account roots are still as claimed (the hub events of the height are replaced by failures); when a later transaction of the chunk changed the account of the first (a name transferred away), the node panics after every restart (C37_wedge universal, C37_wedge_refuted concrete). Not covered: torn writes inside RocksDB (a batch is atomic). Shard 0: a crash between the batch and the block wedges the node for every block with block events (C37_zero_wedge, universal up to hash collisions)."},
 {"property": "C38", "status": "partial", "theorems": ["C38_applied_in_order", "C38_applied_iff_delivered", "C38_gap_stalls", "C38_consumed_unconditionally", "C38_grouping_refuted", "C38_forged_refuted", "C38_zero_numbered", "C38_zero_events", "C38_zero_fanned", "C38_zero_list_unchecked", "C38_zero_list_refuted", "C38_submit_genuine", "C38_sync_endless", "C38_sync_panics", "C38_receiver_forgeable", "C38_receive_complete_partial", "C38_end_to_end_partial"], "note": "Data-shard side: over every chain the events applied are 1..n, each once and in order; exactly which are applied is characterised by the delivery order; a missing number stalls all later ones. False as stated: events pulled in number order are regrouped by account in hash-map order and those before the next number are dropped from the block (C38_grouping_refuted); content is never compared with shard 0, so a forged content with the right number is accepted (C38_forged_refuted), and a number is consumed even when its content has no effect (C38_consumed_unconditionally). Shard 0 side proved: consecutive numbering over every chain. The listed events of a block are never validated (C38_zero_list_refuted). End to end under honest lists and genuine deliveries; confirmation timeouts of the receiver are not modelled."},
 {"property": "C39", "status": "partial", "theorems": ["C39_mirror_partial", "C39_lost_key_refuted", "C39_zero_mirror_partial", "C39_zero_flood_refuted"], "note": "If each store operation changes rows and trie keys alike (faithful, arbitrary key function), every chain in which no validation of another proposal fails keeps trie = keys of rows, revocations, prunes and cached commits included. False without that condition: C39_lost_key_refuted (a row without trie key is committed). The per-operation condition itself fails for names, see C22. Shard 0: mirrored as long as no block runs out of ids; C39_zero_flood_refuted: a valid committed block that does stores a row that is not in the trie."},
 {"property": "C40", "status": "partial", "theorems": ["C40_user_identity", "C40_user_never_validator", "C40_onchain_identity", "C40_block_event_identity", "C40_identity_refuted", "C40_pull_order", "C40_block_event_order_refuted", "C40_duplicates_refused", "C40_handed_out_once", "C40_pull_loses_nothing"], "note": "Order, dedupe and at-most-once hand-out are proved for every history. Refuted as stated: keys of different validator message kinds collide, and block events of one block are ordered by decimal text, not by number."},
 {"property": "C41", "status": "partial", "theorems": ["C41_live_at_bound", "C41_key_add_bound", "C41_store_bound_partial", "C41_hourly_quota_refuted", "C41_key_add_spacing_refuted", "C41_key_remove_limited_refuted", "C41_disabled", "C41_presence_separate", "C41_accounts_separate", "C41_live_quota_monotone"], "note": "Bounds proved for every schedule for the presence and KEY_ADD limiters, and a weaker one for the storage limiter. Refuted as stated: the storage limiter is forgotten after 4 idle minutes and refills, and key removals are limited when rate limits are enabled. The governor and moka crates are modelled from their documented behaviour."},
 {"property": "C42", "status": "partial", "theorems": ["C42_home_shard", "C42_account_not_split", "C42_verification_moves_refuted", "C42_validator_messages"], "note": "Routing is total, in range and depends on the account only. Verifications change home when version 21 activates (refuted, with witness), so the statement holds for the other kinds."},
 {"property": "C43", "status": "partial", "theorems": ["C43_sound", "C43_accept_iff", "C43_complete_sorted", "C43_quorums_intersect", "C43_complete_refuted"], "note": "Soundness holds for every certificate and configuration, and two accepted certificates of a height share a signer. Acceptance is characterised exactly. Completeness holds for signatures listed in ascending key order; for other orders it is refuted, because the set of expected keys is a one-pass iterator."},
 {"property": "C44", "status": "partial", "theorems": ["C44_in_order", "C44_none_lost", "C44_order_irrelevant", "C44_only_signed_refuted", "C44_none_lost_refuted", "C44_malformed_refuted", "C44_buffer_latest"], "note": "Heights in order, each once, certificate signed by a quorum, nothing lost while the buffer has room, arrival order irrelevant. Refuted: the certificate is not compared with the value it accompanies, so a value nobody signed can be committed; a full buffer loses values; a value without header panics."},
 {"property": "C45", "status": "partial", "theorems": ["C45_block_validated", "C45_block_same_state", "C45_shard_partial", "C45_equivocation_refuted", "C45_foreign_value_refuted", "C45_decided_forgotten"], "note": "Shard 0: proved, also that the value was validated on the very state it is committed on when heights are decided in order. Data shards: only if no two proposals claim one hash; refuted otherwise, because a proposal is stored under its claimed hash before it is checked. The shard-0 proposer answers valid to chunks."},
 {"property": "C46", "status": "partial", "theorems": ["C46_in_force", "C46_same_config_agree", "C46_key_order_irrelevant", "C46_rotation_heights", "C46_rotation_rounds", "C46_first_set_refuted"], "note": "Proved when the first configured set covers the shard and is active and activation heights are distinct, as in validators.toml. Refuted in general: the search starts from the first entry whatever its shards and activation."},
 {"property": "C47", "status": "proved", "theorems": ["C47_no_skip", "C47_every_shard_once", "C47_advances", "C47_received_refuted"], "note": "For every run of blocks proposed by the node, legacy path first, then decoupled. C47_received_refuted records that the checks on received blocks do not enforce it."},
 {"property": "C48", "status": "partial", "theorems": ["C48_plain", "C48_entry", "C48_hash_binds", "C48_data_ignored", "C48_forgery", "C48_reads_back_signed", "C48_add_bytes", "C48_refuted"], "note": "Refuted as stated: validation looks only at data_bytes, merging only at data, and nothing compares them. C48_forgery: any admitted message with data_bytes stays admitted with any other data whose account lists the same key (C48_refuted gives one whose account, type, time and body all differ and which validation would reject). True variants: messages without data_bytes (C48_plain), messages that pass message_bytes_decode as at the gossip and RPC entries (C48_entry), and rows read back (C48_reads_back_signed)."},
 {"property": "C49", "status": "proved", "theorems": ["C49_version_is_largest_active", "C49_version_monotone", "C49_feature_stays_on", "C49_signer_bug_window", "C49_protocol_version_monotone", "C49_channel_features_lockstep", "C49_next_version"], "note": "For times that do not overflow u64 seconds; C49_overflow_refuted shows the wrap-around."},
 {"property": "C50", "status": "proved", "theorems": ["C50_print_parse", "C50_parse_print", "C50_accepted_iff", "C50_one_spelling", "C50_every_channel", "C50_follow_iff", "C50_follow_one", "C50_scheduled"], "note": "Parser and printer of channel_uri.rs with the library parsers modelled from their documentation (u64::from_str accepts '+' and leading zeros, ruint skips underscores and takes the empty string as 0, alloy accepts any hex case before the checksum comparison). keccak is an arbitrary function (for C50_accepted_iff one with 32-byte results). C50_accepted_iff gives the accepted language as a grammar independent of parser and printer."},
 {"property": "C51", "status": "partial", "theorems": ["C51_cast_iff", "C51_link_iff", "C51_link_compact_iff", "C51_accepted_cast", "C51_accepted_link", "C51_cast_monotone", "C51_later_version", "C51_monotone_from_6", "C51_monotone_refuted"], "note": "The limits and mention rules hold exactly (iff). Casts and links are monotone in version and tier. The monotonicity of whole messages is refuted before version 6 (ENS names from 5, future timestamps from 6); C51_later_version says exactly which messages a later version can reject, C51_monotone_from_6 that there are none from version 6 on."},
 {"property": "C52", "status": "proved", "theorems": ["C52_newest_presence_kept", "C52_order_irrelevant", "C52_rate_limited_refuted"], "note": "Proved from every reachable state whose messages do not share mempool keys (no hash collision). A submission refused by the rate limiter does not count."},
 {"property": "C53", "status": "partial", "theorems": ["C53_request_deadline", "C53_custody_deadline_refuted"], "note": "The app's request deadline is checked against the message's own timestamp; the custody-signed deadline is only required to be nonzero (refuted)."},
 {"property": "C54", "status": "partial", "theorems": ["C54_replay_restores_role_refuted", "C54_replay_restores_ban_refuted", "C54_current_message_refused"], "note": "Refuted: only the message now in the slot is refused; a dismissed moderator can re-send the owner's old appointment."},
 {"property": "C55", "status": "partial", "theorems": ["C55_cancelled_lend_revived_refuted"], "note": "Refuted: cancelling removes both messages, so nothing outranks the old loan. Validation only bounds how old the replayed message may be (10 minutes)."},
 {"property": "C56", "status": "proved", "theorems": ["C56_mirror_agrees", "C56_mirror_heals"], "note": "For the verification store and every store without compact states; shard-0 history of merges and commits."},
 {"property": "C57", "status": "partial", "theorems": ["C57_first_at_or_after", "C57_tip_kept", "C57_job_exact", "C57_pruned_lookup_refuted"], "note": "True as long as the looked-up block was not pruned. After pruning, index rows by time still point to removed blocks and a lookup of an older time fails although newer blocks exist (C57_pruned_lookup_refuted)."},
 {"property": "C58", "status": "partial", "theorems": ["C58_tables_agree", "C58_never_backwards", "C58_hint_exact", "C58_follows_chain_partial", "C58_order_refuted"], "note": "Table agreement, monotone chain position and exact report hold for every history. Agreement with the registry needs delivery in chain order and no hash collision among the registered channel keys; out of order it is false (C58_order_refuted)."},
 {"property": "C59", "status": "partial", "theorems": ["C59_replay_time_partial", "C59_replay_time_refuted"], "note": "False of the code: is_active reads the wall clock, so a node executing the block after a rent expired rejects a loan others accepted. Proved for execution times between which none of the rents involved expires. Modelled for storage lending only."},
 {"property": "C60", "status": "partial", "theorems": ["C60_custody_latest", "C60_order_irrelevant_partial", "C60_same_block_refuted"], "note": "Independent of order with one event per account and block; two events of one block are resolved by arrival order (C60_same_block_refuted). Recovery-address events are not registrations or transfers."},
 {"property": "C61", "status": "partial", "theorems": ["C61_subscription_partial", "C61_purchase_honoured", "C61_never_beyond_paid", "C61_unordered_refuted"], "note": "Exact for purchases whose stored order (by block) is also their time order; otherwise a paid subscription can read as inactive (C61_unordered_refuted)."},
 {"property": "C62", "status": "partial", "theorems": ["C62_displayed_owned_partial", "C62_set_checked", "C62_same_block_refuted", "C62_unsigned_sender_refuted", "C62_rejected_transfer_refuted", "C62_eth_refuted"], "note": "Proved for registered names when transfers name the true previous owner and the username was not set in the same block; refuted otherwise and for .eth names."},
 {"property": "C63", "status": "partial", "theorems": ["C63_type_ignored", "C63_retype", "C63_no_body", "C63_refuted"], "note": "Refuted as stated: no static check compares type and body (C63_type_ignored, C63_retype), and a message without any body is valid (C63_no_body). C63_refuted: admitted messages typed CastAdd with a cast-remove body and with none. What merging such a message does to the cast store is C15_mistyped_add_refuted."},
 {"property": "C64", "status": "partial", "theorems": ["C64_signed", "C64_contract_unchecked", "C64_chain_truncated", "C64_remove_iff", "C64_refuted"], "note": "Holds for externally owned and Solana addresses (C64_signed; the signature check itself is an oracle). Refuted for contract verifications: any account can claim any 20-byte address with any bytes as signature (C64_contract_unchecked; by design checked outside consensus, at one RPC entry), and the chain id is compared modulo 65536."},
 {"property": "C65", "status": "proved", "theorems": ["C65_username_iff", "C65_proof_iff", "C65_github_ascii", "C65_github_unicode", "C65_twitter_iff", "C65_location_iff", "C65_token_iff", "C65_eth_address_iff", "C65_sol_address_iff", "C65_fields_iff"], "note": "Exact grammars. Github names: exact over ASCII; the class also admits non-ASCII decimal digits (C65_github_unicode), and the documented length 39 is cut to 38."},
 {"property": "C66", "status": "proved", "theorems": ["C66_key_add_iff", "C66_key_remove_iff", "C66_channel_iff", "C66_lend_iff", "C66_lend_at_start", "C66_frame_iff", "C66_reaction_iff", "C66_body_iff", "C66_message_iff"], "note": "Exact. In the first ten minutes of the clock the lend freshness check wraps and rejects every realistic lend (C66_lend_at_start)."},
 {"property": "C67", "status": "proved", "theorems": ["C67_paging", "C67_page_size_irrelevant", "C67_unknown_child", "C67_lost_node_refuted"], "note": "For prefixes up to 6 bytes (the callers use 1) and keys shorter than 2^30 bytes. Longer prefixes list nothing when a single key lies below (see C07_listing_long_prefix_refuted). On a damaged database a missing node is skipped without an error (C67_lost_node_refuted); reachable tries are not damaged, so the property itself holds."},
 {"property": "C68", "status": "proved", "theorems": ["C68_serializable", "C68_no_deadlock", "C68_can_complete", "C68_commit", "C68_put_del", "C68_unsorted_deadlock"], "note": "Two-phase locking of RocksDB's TransactionDB is modelled from its documentation: exclusive locks taken at each write or get_for_update and kept to the end. A lock timeout is an abort. Unlocked reads outside a transaction are not part of the claim."},
 {"property": "C69", "status": "partial", "theorems": ["C69_fids", "C69_fids_page_refuted", "C69_fids_endless_refuted", "C69_never_wrong", "C69_no_early_sweep", "C69_done", "C69_idempotent", "C69_finishes", "C69_lock_order"], "note": "Proved for databases in order (wf), which includes that a fid's registration precedes its other id-register rows and that fids stay below 2^32-1. Without the first condition the iterator ends silently at the first page of rows without a registration (C69_fids_page_refuted: fids behind it are never migrated, yet the old entries are swept); a registration of fid 2^32-1 makes it run forever (C69_fids_endless_refuted). Live batches are any that satisfy live_ok."},
 {"property": "C70", "status": "proved", "theorems": ["C70_version", "C70_restartable"], "note": "Any interleaving of engine batches (live_ok), m1 batches, m2 steps, crashes and restarts."},
 {"property": "C71", "status": "proved", "theorems": ["C71_lookup_sound", "C71_lookup", "C71_owner", "C71_owner_sound", "C71_best_unique"], "note": "The message behind a primary entry is taken to be present with the ts_hash of the entry."},
 {"property": "C72", "status": "partial", "theorems": ["C72_replay_rebuilds", "C72_links_rebuilt_partial", "C72_superseded_link_lost", "C72_equal_time_refuted", "C72_names_rebuilt_partial", "C72_renewed_name_refuted", "C72_released_name_refuted", "C72_two_names_refuted", "C72_signers_refuted", "C72_outranked_name_fails"], "note": "False as stated; exact for message stores: replay yields the serving node's store for every order and paging iff no stored link is superseded by a stored compact state (C72_replay_rebuilds, C72_superseded_link_lost), which holds for histories with per-type compaction and no link with the timestamp of a compact state (C72_links_rebuilt_partial). Names are rebuilt without renewals; renewed names are not in the trie and are missing afterwards, released names can be replayed, and the by-fid row and active signers depend on the order."},
 {"property": "C73", "status": "partial", "theorems": ["C73_merged_are_listed", "C73_keys_backed_partial", "C73_key_binds_bytes", "C73_same_signed_bytes_partial", "C73_accounts_checked_partial", "C73_content_forged", "C73_chain_forged", "C73_any_key_accepted", "C73_forged_signer_refuted", "C73_forged_time_refuted", "C73_withheld_refuted", "C73_unlisted_message_refuted", "C73_unsorted_refuted"], "note": "Refuted as stated. Proved for all pages: merged messages are listed and authentic, keys bind signed bytes up to BLAKE3 collisions, and without repeated names or messages claiming registered names the merged messages sign exactly the snapshot's bytes; sorted accounts are checked. Universal failures: the merged content next to signed bytes is free (C73_content_forged), on-chain events are not authenticated (C73_chain_forged, C73_forged_signer_refuted), a registered name backs any key (withheld message), a username proof message stands in for a name, unsorted accounts are unchecked."},
 {"property": "C74", "status": "partial", "theorems": ["C74_in_order_partial", "C74_overtaken_root", "C74_stopped_dangling", "C74_resumed_iff", "C74_overtaken_refuted", "C74_stopped_refuted", "C74_resumed_refuted"], "note": "Refuted as stated: trie update and write are under separate locks. Proved for every schedule whose writes follow the order of trie updates (with any restarts); universal failures when a write is overtaken (stale root forever), when stopped or refused in between, and when resumed with a changed snapshot (exact condition)."},
 {"property": "C75", "status": "partial", "theorems": ["C75_log_exact", "C75_lend_merge", "C75_trie_follows", "C75_precise_partial", "C75_deleted_twice_refuted", "C75_announced_twice_refuted", "C75_loan_keys"], "note": "Exactness of the log and of the trie proved for all six message stores and every history (distinct messages have distinct identifiers; messages of a shape the store can file). The last part, each change reported once, holds when no scan meets a message superseded in the open block (C75_precise_partial) and is false otherwise: a link can be reported deleted twice, a message announced twice."},
 {"property": "C76", "status": "partial", "theorems": ["C76_page_fields", "C76_replay_as_live", "C76_timestamp_refuted", "C76_cycle", "C76_never_ends", "C76_equal_pages", "C76_unequal_pages_refuted", "C76_missing_shard_refuted", "C76_order_refuted", "C76_stream", "C76_stream_drained", "C76_exactly_once", "C76_gap", "C76_lost_and_repeated_refuted", "C76_empty_filter"], "note": "False as stated. Exact description of what is returned: the k-th response holds page k modulo the number of pages of each shard (C76_cycle), so with one shard or equally many pages a client stopping at the first response with all tokens empty gets everything once (C76_equal_pages); with different numbers of pages events of the shorter shard are repeated (C76_unequal_pages_refuted), a client waiting for an absent token never stops (C76_never_ends), a node without all shards refuses its own token, and the tokens are positional in a hash map order that changes at restart. Streams: exactly the events committed at the last page read followed by those sent after the receiver exists (C76_stream); events committed and sent in between are lost for ever (C76_gap), events read but not yet sent come twice; exactly once when neither happens. JSON encoding of tokens, client hang-up and pruning during a replay are not modelled."},
 {"property": "C77", "status": "partial", "theorems": ["C77_event_job", "C77_retention", "C77_stuck_refuted"], "note": "False as stated. C77_event_job says exactly what one run does after every history; it is right when no block job had a later cutoff and some block is not older than the cutoff (C77_retention). With block retention shorter than event retention the block job leaves the time index pointing at removed chunks, the lookup fails, the error is turned into nothing to prune, and every later run removes nothing (C77_stuck_refuted). The prune lock and throttling are not modelled."},
 {"property": "C78", "status": "partial", "theorems": ["C78_at_least_once", "C78_poll", "C78_stop_refuted", "C78_historical", "C78_lost_refuted", "C78_gives_up_refuted", "C78_retry_kinds_refuted"], "note": "Refuted as stated: a log whose processing failed is below the recorded block and never sent again (C78_lost_refuted), six failed requests end the subscriber (C78_gives_up_refuted), with a stop block below the head a poll never ends (C78_stop_refuted), a retry of an account leaves out two kinds of events (C78_retry_kinds_refuted). Proved: at-least-once for all histories where no log failed to be processed and the contract was watched at every start (C78_at_least_once); polls are exact (C78_poll); a historical sync sends blocks on batch boundaries twice, others once (C78_historical)."},
 {"property": "C79", "status": "partial", "theorems": ["C79_at_least_once", "C79_caught_up", "C79_progress", "C79_in_order", "C79_restart_refuted", "C79_inclusive_stuck", "C79_stop"], "note": "Refuted as stated for the default configuration without a start id: a restart begins at the newest transfer and those made while the node was down are never sent (C79_restart_refuted). Proved with a start id, for honest servers and all histories: everything well formed up to the position and the recorded id was sent, and everything once caught up; pages make progress; ids sent between starts grow. A server that answers inclusively stops the fetcher (C79_inclusive_stuck)."},
 {"property": "C80", "status": "partial", "theorems": ["C80_exact", "C80_slow_refuted", "C80_retention", "C80_available", "C80_catching_up"], "note": "As stated false: the engine waits at most 200 ms for the replicator before it goes on (engine.rs:2561-2598), so a slow replicator opens its read-only view after the next commit and the snapshot labelled h holds block h+1 (C80_slow_refuted). Proved: exact while every post-commit message of a shard is handled before its next commit; retention and availability for every interleaving."},
 {"property": "C81", "status": "partial", "theorems": ["C81_page", "C81_walk", "C81_blocked_refuted", "C81_cache_sound", "C81_cached", "C81_capacity_refuted", "C81_name_current"], "note": "Proved for snapshots of servable message types. False in general: a KeyAdd/KeyRemove message is stored and put in the trie but the server has no listing for it (replicator.rs:362-369), so no walk over its virtual shard is ever answered (C81_blocked_refuted). The cache keeps to its limit, but two concurrent misses of one key are counted twice for good and shrink it (C81_capacity_refuted)."},
 {"property": "C82", "status": "proved", "theorems": ["C82_message", "C82_full", "C82_status", "C82_routed", "C82_request", "C82_response", "C82_no_value"], "note": "Messages with fields in range (32-byte addresses, contents below 4 GiB, rounds below 2^32). The value inside a proposed block is opaque: that it can be read back is a hypothesis. A value response without a value cannot be encoded, so such a request is never answered (C82_no_value)."},
 {"property": "C83", "status": "proved", "theorems": ["C83_votes", "C83_proposals", "C83_kinds", "C83_full"], "note": "The signed bytes contain no network id: the same bytes are signed on every network."},
 {"property": "C84", "status": "partial", "theorems": ["C84_gossip_refuted", "C84_response_refuted", "C84_gossip_iff", "C84_response_iff", "C84_request"], "note": "Refuted as stated: a proposed block without height (bytes 12 00) panics the gossip task, as do sync responses with a vote or certificate lacking its height or with an address that is not 32 bytes; consensus messages with an unknown vote type, a short voter or no value panic the network actor of the shard. The iff theorems say exactly which bytes do; sync requests never do."},
 {"property": "C85", "status": "partial", "theorems": ["C85_chunks", "C85_copy", "C85_closed_refuted", "C85_restore", "C85_in_order", "C85_by_name", "C85_by_name_limit", "C85_swapped", "C85_order_refuted"], "note": "Refuted as stated: the metadata names the chunks in the order read_dir lists them, which is unspecified, and the download concatenates in that order (C85_order_refuted; C85_swapped is the exact condition for two chunks); a database that is not open or read-only is archived as an empty one (C85_closed_refuted). True: with the listing in numeric order the database comes back (C85_in_order), a listing sorted by name is that order below 10000 chunks (C85_by_name) and not beyond (C85_by_name_limit)."},
 {"property": "C86", "status": "partial", "theorems": ["C86_invariant", "C86_interrupted", "C86_upload_other", "C86_clear_own", "C86_clear_other", "C86_clear_prefix_refuted", "C86_stale_refuted"], "note": "Refuted as stated: the listing prefix has no trailing slash, so clearing shard s deletes everything of every other shard whose decimal begins with that of s, e.g. 1 and 10 (C86_clear_prefix_refuted, for all such pairs); metadata read from a public address that still serves the previous file makes clearing delete the chunks just uploaded (C86_stale_refuted). True: interrupted uploads, uploads of other shards, clearing with current metadata, and clearing for all other shard numbers."},
 {"property": "C87", "status": "partial", "theorems": ["C87_guard", "C87_after_crash", "C87_exclusive_partial", "C87_two_starts_refuted", "C87_slow_refuted", "C87_entries"], "note": "Refuted as stated: two starts before the first entry both proceed, and an upload that leaves the directory unchanged for more than twelve hours is wiped by the next start. True: exact guard, at most twelve hours of blocking after a crash, and exclusion for uploads that make an entry at once, keep one, and are never idle for more than twelve hours (C87_exclusive_partial)."},
 {"property": "C88", "status": "partial", "theorems": ["C88_uninterrupted", "C88_before_first", "C88_interrupted_refuted", "C88_cleared", "C88_forced", "C88_forced_completes", "C88_forced_stale_refuted"], "note": "Refuted as stated: any stop between the first and the last change leaves a database directory that is not empty (the replication bootstrap works inside it), so every later start serves without the rest instead of resuming (C88_interrupted_refuted, for every interior stop); a forced download over an older database keeps old files (C88_forced_stale_refuted). True: uninterrupted starts, starts with the database cleared, and a forced download after an interrupted one."},
 {"property": "C89", "status": "partial", "theorems": ["C89_one_value_partial", "C89_right_height", "C89_storage_error_refuted"], "note": "Holds while reads and writes of the local database work; a failed write or read is only logged, so the node then proposes a second value for the same height and round (refuted). C89_right_height needs no such assumption."},
 {"property": "C90", "status": "partial", "theorems": ["C90_committed_partial", "C90_restart_refuted"], "note": "Refuted: after a restart the stored proposal is proposed again without being put back among the proposed values, so its decision is not found and the height starts over for ever unless the value arrives from another node. Within one process the value is found."},
 {"property": "C91", "status": "partial", "theorems": ["C91_records_partial", "C91_delete", "C91_account_root", "C91_shard_cut_refuted"], "note": "The bootstrap records cut the shard id to a byte: shards 256 apart share them (refuted); everything else holds for all values of the Rust types."},
 {"property": "C92", "status": "partial", "theorems": ["C92_endless_refuted", "C92_pages", "C92_lcm", "C92_repeats_refuted", "C92_once_partial", "C92_failure_hidden_refuted", "C92_order_refuted"], "note": "False as stated. Four of the five reads never end (C92_endless_refuted, for any contents). Reactions by target ends after the least common multiple of the shards' page counts and lists a shard with n pages L/n times; only equal page counts give every row once. A failing shard reads as empty; tokens are positional, so another visiting order repeats and passes over rows."},
 {"property": "C93", "status": "proved", "theorems": ["C93_pages", "C93_once", "C93_followers", "C93_token_names_shards", "C93_no_gap", "C93_empty_token"], "note": "For page tokens that round-trip through the JSON encoding and contents that do not change while paging."},
 {"property": "C94", "status": "partial", "theorems": ["C94_sized", "C94_unsized", "C94_zero_refuted", "C94_size_change_refuted", "C94_one_per_key_refuted", "C94_signers_partial"], "note": "With a fixed page size of at least one (or none) both stores are listed once. False as stated: page size zero never ends; a smaller page size in the middle forgets the gasless position; the on-chain side has every event of an active key, not one per key."},
 {"property": "C95", "status": "partial", "theorems": ["C95_run", "C95_restart", "C95_keeps", "C95_restores_partial", "C95_choice", "C95_sound_partial", "C95_race_refuted", "C95_renewal_refuted"], "note": "Refuted as stated: a renewed name has lost both its row and its trie entry (C22_renewal_refuted) and the migration only looks in the trie, so it never restores the row (C95_renewal_refuted, for all histories); a transfer between the lookup and the commit leaves the old owner's row pointing to the new owner's name (C95_race_refuted). Proved: result exists and is unique, restart-safe, keeps existing rows, restores accounts with names in the trie, and stays sound if no merge falls inside an account."},
 {"property": "C96", "status": "partial", "theorems": ["C96_complete", "C96_at_most", "C96_smooth", "C96_unreadable_token_refuted", "C96_skipped_refuted"], "note": "Completeness, repeats and termination are proved for readable tokens. Refuted parts: with an unreadable token the first page is sent for ever (C96_unreadable_token_refuted); an event whose trial merge fails is passed over and the job still finishes (C96_skipped_refuted). The mempool may still drop what it is handed; not modelled."},
 {"property": "C97", "status": "partial", "theorems": ["C97_once", "C97_sound", "C97_near_partial", "C97_pruned_peer_refuted", "C97_needs_answer_refuted", "C97_accounted", "C97_expiry_once", "C97_answered_no_expiry", "C97_leak_refuted", "C97_dies_iff", "C97_forwards", "C97_served", "C97_pruned_between_refuted", "C97_validator_advertises_refuted", "C97_collect", "C97_subscribes_once", "C97_subset_refuted"], "note": "Once, sound with respect to the known peers' ranges, requests bounded: proved. False as stated: a peer that prunes its history lets a node announce however far behind it is; without any answer the announcement never comes; answered requests stay listed for ever; an empty or undecodable answer, honest after pruning, stops the actor; a node that runs fewer shards than num_shards never subscribes."},
 {"property": "C98", "status": "partial", "theorems": ["C98_routed", "C98_roles", "C98_down_iff", "C98_down_refuted", "C98_dials", "C98_table", "C98_spoof_refuted", "C98_table_grows_refuted"], "note": "Routing and roles proved. False as stated: a proposal without height or a contact info with a malformed peer id stops the gossip task, a decided value without header or for a foreign shard stops a read node's main loop (C98_down_iff is the exact list); contact info is not tied to its sender. The mapping does not look at the topic, so any of these can come on any subscribed topic."},
 {"property": "C99", "status": "partial", "theorems": ["C99_known_connected", "C99_all_connected_partial", "C99_second_connection_refuted", "C99_bounce_justified", "C99_bounce_spacing", "C99_bounce_complete"], "note": "Sweep proved. The set of connected peers is right only while no peer has two connections: closing one of two drops the peer and its statuses are ignored."}
]}
