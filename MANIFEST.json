{
 "claims": [
  {
   "property": "C01",
   "status": "proved",
   "theorems": [
    "C01_xor_distance_metric",
    "C01_xor_unidirectional"
   ],
   "note": ""
  },
  {
   "property": "C02",
   "status": "proved",
   "theorems": [
    "C02_log2_brackets",
    "C02_big_endian_order"
   ],
   "note": ""
  },
  {
   "property": "C03",
   "status": "proved",
   "theorems": [
    "C03_payload_round_trip",
    "C03_payload_encode_fails",
    "C03_payload_single_round_trip"
   ],
   "note": ""
  },
  {
   "property": "C04",
   "status": "proved",
   "theorems": [
    "C04_payload_decode_exact",
    "C04_payload_single_exact",
    "C04_payload_decode_total"
   ],
   "note": ""
  },
  {
   "property": "C05",
   "status": "proved",
   "theorems": [
    "C05_hex_round_trip",
    "C05_hex_decode_exact",
    "C05_hex_decode_total",
    "C05_hex_compact"
   ],
   "note": ""
  },
  {
   "property": "C06",
   "status": "proved",
   "theorems": [
    "C06_accept_codes_wire",
    "C06_accept_codes_limit",
    "C06_accept_codes_decode_total",
    "C06_accept_codes_new",
    "C06_all_declined",
    "C06_bitlist_canonical"
   ],
   "note": ""
  },
  {
   "property": "C07",
   "status": "proved",
   "theorems": [
    "C07_message_round_trip"
   ],
   "note": ""
  },
  {
   "property": "C08",
   "status": "partial",
   "theorems": [
    "C08_decode_total",
    "C08_decode_unambiguous_partial",
    "C08_same_message_same_bytes_partial",
    "C08_decode_unambiguous_refuted",
    "C08_request_xor_response"
   ],
   "note": "Never panics; re-encodes to its bytes except for a ping or pong payload above 1100 bytes, which is cut silently (C08_decode_unambiguous_refuted). The re-encoding claim is relative to the ENR codec being canonical."
  },
  {
   "property": "C09",
   "status": "proved",
   "theorems": [
    "C09_no_second_transfer",
    "C09_refused_only_in_progress",
    "C09_accepted_after_end"
   ],
   "note": ""
  },
  {
   "property": "C10",
   "status": "partial",
   "theorems": [
    "C10_fallback_offered",
    "C10_no_fallback_only_if_none",
    "C10_no_peer_twice",
    "C10_fallback_is_other_node_refuted"
   ],
   "note": "Proved that the fallback peer offered the key and its record differs from the failed one. Refuted: it can be the same node with an updated record (C10_fallback_is_other_node_refuted)."
  },
  {
   "property": "C11",
   "status": "proved",
   "theorems": [
    "C11_insert",
    "C11_delete",
    "C11_lookup_history",
    "C11_lookup_key",
    "C11_should_we_store"
   ],
   "note": ""
  },
  {
   "property": "C12",
   "status": "proved",
   "theorems": [
    "C12_usage_exact",
    "C12_usage_not_below",
    "C12_repeated_insert_refuted"
   ],
   "note": "C12_repeated_insert_refuted shows the drift that repeated inserts cause; it only overestimates (C12_usage_not_below)."
  },
  {
   "property": "C13",
   "status": "proved",
   "theorems": [
    "C13_within_capacity"
   ],
   "note": ""
  },
  {
   "property": "C14",
   "status": "partial",
   "theorems": [
    "C14_removes_farthest",
    "C14_reports_dropped",
    "C14_unreported_refuted"
   ],
   "note": "Removal of the farthest is proved for every history, the exact report when no content present was inserted again. Refuted otherwise: the last batch is not reported, and content that fits is removed (C14_unreported_refuted)."
  },
  {
   "property": "C15",
   "status": "proved",
   "theorems": [
    "C15_radius_covers_store",
    "C15_radius_after_prune",
    "C15_exact_radius_refuted"
   ],
   "note": "At the precision of the four-byte prefix; C15_exact_radius_refuted shows an entry farther than the radius."
  },
  {
   "property": "C16",
   "status": "proved",
   "theorems": [
    "C16_reopen",
    "C16_crash_reopen",
    "C16_refused_but_pruned_refuted"
   ],
   "note": "C16_refused_but_pruned_refuted: a database of another node is refused only after it was pruned. Migration from the legacy store is not modelled."
  },
  {
   "property": "C17",
   "status": "proved",
   "theorems": [
    "C17_pages"
   ],
   "note": ""
  },
  {
   "property": "C18",
   "status": "proved",
   "theorems": [
    "C18_combined_split",
    "C18_specific",
    "C18_accepted_command_line"
   ],
   "note": ""
  },
  {
   "property": "C19",
   "status": "proved",
   "theorems": [
    "C19_complete",
    "C19_complete_debug",
    "C19_debug_past_the_end_refuted"
   ],
   "note": ""
  },
  {
   "property": "C20",
   "status": "proved",
   "theorems": [
    "C20_sound",
    "C20_one_leaf_per_position",
    "C20_length"
   ],
   "note": ""
  },
  {
   "property": "C21",
   "status": "proved",
   "theorems": [
    "C21_incremental",
    "C21_same_tree",
    "C21_snapshot",
    "C21_finalize_none_refuted",
    "C21_finalize_beyond_refuted"
   ],
   "note": ""
  },
  {
   "property": "C22",
   "status": "partial",
   "theorems": [
    "C22_only_canonical",
    "C22_no_panic",
    "C22_no_panic_refuted"
   ],
   "note": "Proved for beacon blocks of the shape the proof kind is for; C22_no_panic_refuted: a proof naming a slot past the frozen historical roots crashes the validation task."
  },
  {
   "property": "C23",
   "status": "proved",
   "theorems": [
    "C23_honest_pre_merge",
    "C23_other_header"
   ],
   "note": ""
  },
  {
   "property": "C24",
   "status": "proved",
   "theorems": [
    "C24_newest",
    "C24_monotone",
    "C24_final_not_ahead",
    "C24_summary"
   ],
   "note": ""
  },
  {
   "property": "C25",
   "status": "proved",
   "theorems": [
    "C25_round_trip",
    "C25_accepted",
    "C25_layout"
   ],
   "note": ""
  },
  {
   "property": "C26",
   "status": "proved",
   "theorems": [
    "C26_legacy_history",
    "C26_beacon",
    "C26_state",
    "C26_history",
    "C26_layout",
    "C26_content_id",
    "C26_radius"
   ],
   "note": ""
  },
  {
   "property": "C27",
   "status": "proved",
   "theorems": [
    "C27_id",
    "C27_distinct",
    "C27_history",
    "C27_history_type",
    "C27_order",
    "C27_next"
   ],
   "note": ""
  },
  {
   "property": "C28",
   "status": "partial",
   "theorems": [
    "C28_node_sound",
    "C28_account_sound",
    "C28_node_complete",
    "C28_account_complete",
    "C28_account_unique",
    "C28_node_unique",
    "C28_no_panic",
    "C28_empty_leaf_refuted",
    "C28_decoder"
   ],
   "note": "Soundness, completeness and uniqueness proved with the node decoder as an argument (a decoder that meets the hypothesis is given); an account whose leaf has no remaining path cannot be proved (C28_empty_leaf_refuted), which does not arise for 32-byte address hashes in practice."
  },
  {
   "property": "C29",
   "status": "proved",
   "theorems": [
    "C29_put",
    "C29_stored_valid",
    "C29_canonical_stored",
    "C29_valid_form",
    "C29_read_back"
   ],
   "note": ""
  },
  {
   "property": "C30",
   "status": "partial",
   "theorems": [
    "C30_checked",
    "C30_actual_partial",
    "C30_any_node_refuted",
    "C30_any_code_refuted"
   ],
   "note": "Proved for the validator with the header check on (C30_checked). The code has it switched off, so the property is false of it (C30_any_node_refuted, C30_any_code_refuted); what remains is C30_actual_partial."
  },
  {
   "property": "C31",
   "status": "proved",
   "theorems": [
    "C31_node_lookup",
    "C31_node_lookup_contact",
    "C31_content_lookup",
    "C31_content_lookup_contact"
   ],
   "note": ""
  },
  {
   "property": "C32",
   "status": "proved",
   "theorems": [
    "C32_result",
    "C32_nearest_first"
   ],
   "note": ""
  },
  {
   "property": "C33",
   "status": "partial",
   "theorems": [
    "C33_terminates",
    "C33_content_terminates",
    "C33_peer_timeout_refuted"
   ],
   "note": "Proved: at most as many requests as peers ever named, at most as many idle polls as requests, and with nothing in flight a poll finishes or contacts a new peer. Refuted that the per-peer timeout suffices for that (C33_peer_timeout_refuted): when an uncontacted nearer peer is known and the lookup is at capacity, overdue peers further away are not given up, so only replies, failures or the overall timeout end it."
  },
  {
   "property": "C34",
   "status": "proved",
   "theorems": [
    "C34_only_validated",
    "C34_one_at_a_time",
    "C34_announces_supplied",
    "C34_valid_content_returned",
    "C34_gives_up_late"
   ],
   "note": ""
  },
  {
   "property": "C35",
   "status": "partial",
   "theorems": [
    "C35_one_verdict_partial",
    "C35_no_verdict_refuted"
   ],
   "note": "Proved when the sender is known and shares a protocol version; refuted otherwise (C35_no_verdict_refuted): no outcome is ever sent and the lookup makes no step until its overall timeout."
  },
  {
   "property": "C36",
   "status": "proved",
   "theorems": [
    "C36_accounting",
    "C36_poll",
    "C36_start"
   ],
   "note": ""
  },
  {
   "property": "C37",
   "status": "proved",
   "theorems": [
    "C37_log_distances",
    "C37_too_many"
   ],
   "note": "C37_too_many: more than 127 distances is a panic, as documented in the code."
  },
  {
   "property": "C38",
   "status": "proved",
   "theorems": [
    "C38_closest"
   ],
   "note": ""
  },
  {
   "property": "C39",
   "status": "proved",
   "theorems": [
    "C39_nodes_by_distance",
    "C39_small_limit_refuted"
   ],
   "note": "Complete when no requested bucket has more entries than the limit, which is the case in the service (32 against 16); C39_small_limit_refuted otherwise."
  },
  {
   "property": "C40",
   "status": "proved",
   "theorems": [
    "C40_nodes_reply_fits",
    "C40_content_reply_fits",
    "C40_unaffected_content_no_nodes",
    "C40_inline_content_fits"
   ],
   "note": ""
  },
  {
   "property": "C41",
   "status": "proved",
   "theorems": [
    "C41_recipients",
    "C41_offers_sent",
    "C41_poke",
    "C41_repeated_refuted",
    "C41_mixed_order_refuted",
    "C41_peer_count_refuted"
   ],
   "note": "Repeated content is offered twice, mixed batches lose their order and the reported number of peers includes those skipped (C41_*_refuted)."
  },
  {
   "property": "C42",
   "status": "proved",
   "theorems": [
    "C42_populated_offer_delivers",
    "C42_stored_offer_delivers",
    "C42_versions_agree_refuted"
   ],
   "note": "Proved when both sides use the same protocol version; C42_versions_agree_refuted shows what happens otherwise (value arrives under another key or is dropped)."
  },
  {
   "property": "C43",
   "status": "proved",
   "theorems": [
    "C43_offer_reply_faithful",
    "C43_rate_limited",
    "C43_no_panic",
    "C43_zero_id_means_nothing_accepted_refuted"
   ],
   "note": "C43_zero_id_means_nothing_accepted_refuted: a random connection id 0 makes the sender ignore an acceptance."
  },
  {
   "property": "C44",
   "status": "proved",
   "theorems": [
    "C44_only_valid_content",
    "C44_in_order",
    "C44_offered_content_used",
    "C44_fallback_content_used",
    "C44_lookup_answer"
   ],
   "note": ""
  },
  {
   "property": "C45",
   "status": "partial",
   "theorems": [
    "C45_bounded",
    "C45_refused_iff_full",
    "C45_released",
    "C45_independent",
    "C45_all_transfers_refuted"
   ],
   "note": "Proved for offers received, content served and gossip; downloads of lookups and offers made by users take no slot (C45_all_transfers_refuted)."
  },
  {
   "property": "C46",
   "status": "proved",
   "theorems": [
    "C46_built_entries",
    "C46_round_trip",
    "C46_canonical",
    "C46_distinct",
    "C46_serialize",
    "C46_large_refuted"
   ],
   "note": "Converting a list of records to bytes with TryFrom works below 4 GiB in all and panics above (C46_serialize, C46_large_refuted); write has no such limit."
  },
  {
   "property": "C47",
   "status": "partial",
   "theorems": [
    "C47_exact_partial",
    "C47_trailing_refuted",
    "C47_cut_refuted"
   ],
   "note": "Exactly when reading panics (C47_exact_partial): after whole records one to five bytes are left, or a length field is within 8 of 4 GiB. So the property is false (C47_trailing_refuted, C47_cut_refuted)."
  },
  {
   "property": "C48",
   "status": "proved",
   "theorems": [
    "C48_monotone",
    "C48_justified",
    "C48_saved_checkpoint",
    "C48_safety"
   ],
   "note": ""
  },
  {
   "property": "C49",
   "status": "proved",
   "theorems": [
    "C49_provenance",
    "C49_canonical"
   ],
   "note": ""
  },
  {
   "property": "C50",
   "status": "proved",
   "theorems": [
    "C50_served_was_written",
    "C50_bootstrap_kept",
    "C50_updates_kept",
    "C50_latest_served"
   ],
   "note": "Bootstraps are served under the root of their header, whatever key they were stored for (C65_bootstrap_key_refuted)."
  },
  {
   "property": "C51",
   "status": "partial",
   "theorems": [
    "C51_chain_head",
    "C51_served_one_at_a_time",
    "C51_served_refuted"
   ],
   "note": "The chain head never goes back while the node runs, nor does what is served when content is handled one item at a time. Refuted for concurrent handling: an older validated finality update can replace a newer one (C51_served_refuted)."
  },
  {
   "property": "C52",
   "status": "partial",
   "theorems": [
    "C52_header_by_hash",
    "C52_header_by_number",
    "C52_header_unique",
    "C52_body",
    "C52_body_same",
    "C52_stripped_refuted",
    "C52_receipts",
    "C52_ephemeral",
    "C52_all_or_nothing",
    "C52_honest_header",
    "C52_honest_body",
    "C52_honest_receipts",
    "C52_junk_refuted",
    "C52_no_panic",
    "C52_panic_refuted",
    "C52_stored",
    "C52_rpc_store_refuted"
   ],
   "note": "Proved: what is accepted and stored from the network is bound to its key and to headers of the chain. False as stated in four ways: a body whose withdrawals were removed is accepted (C52_stripped_refuted), bytes after RLP items are accepted (C52_junk_refuted), a crafted proof panics validation (C52_panic_refuted), and headers stored by JSON-RPC are trusted unchecked (C52_rpc_store_refuted)."
  },
  {
   "property": "C53",
   "status": "partial",
   "theorems": [
    "C53_negotiation_greatest_common",
    "C53_negotiation_symmetric",
    "C53_chosen_version_is_supported_refuted",
    "C53_spec_lists_are_sorted_refuted"
   ],
   "note": "Proved for strictly increasing version lists. Refuted: a peer without a version entry is taken to speak version 0 even by a node that does not (C53_chosen_version_is_supported_refuted); the constructor drops its sortedness check (C53_spec_lists_are_sorted_refuted)."
  },
  {
   "property": "C54",
   "status": "proved",
   "theorems": [
    "C54_one_entry",
    "C54_newest",
    "C54_discovered",
    "C54_batch",
    "C54_by_hand_refuted"
   ],
   "note": "For records that are discovered; a record entered by hand replaces a newer one (C54_by_hand_refuted)."
  },
  {
   "property": "C55",
   "status": "partial",
   "theorems": [
    "C55_allocation_bounded_refuted",
    "C55_allocation_bounded_partial"
   ],
   "note": "The bound is refuted: one prefix of five bytes reserves up to 4 GiB before the length is checked (C55_allocation_bounded_refuted); what holds is the bound for accepted payloads (C55_allocation_bounded_partial)."
  },
  {
   "property": "C56",
   "status": "proved",
   "theorems": [
    "C56_random_id_in_bucket"
   ],
   "note": ""
  },
  {
   "property": "C57",
   "status": "proved",
   "theorems": [
    "C57_spread_ids",
    "C57_spread_ids_panic"
   ],
   "note": ""
  },
  {
   "property": "C58",
   "status": "partial",
   "theorems": [
    "C58_stuck_key_released_partial",
    "C58_stuck_key_released_refuted",
    "C58_overdue_key_refused"
   ],
   "note": "Refuted for keys that keep being offered and when several keys are overdue; proved when no offer of the key came for two minutes and it is the oldest overdue one."
  },
  {
   "property": "C59",
   "status": "proved",
   "theorems": [
    "C59_found_content_delivered"
   ],
   "note": ""
  },
  {
   "property": "C60",
   "status": "partial",
   "theorems": [
    "C60_accepted_keys_accounted_partial",
    "C60_accepted_keys_released_refuted"
   ],
   "note": "Every accepted key is removed from the queue or passed to the fallback procedure; the fallback procedure does not release keys that are not subject to the radius (C60_accepted_keys_released_refuted)."
  },
  {
   "property": "C61",
   "status": "proved",
   "theorems": [
    "C61_radius_percentage"
   ],
   "note": ""
  },
  {
   "property": "C62",
   "status": "partial",
   "theorems": [
    "C62_pinged_partial",
    "C62_only_known",
    "C62_pinged_refuted"
   ],
   "note": "Refuted: after a failed request, a request from the peer makes it connected again without putting it back into the queue (C62_pinged_refuted). Proved for histories without requests from peers, entries made by hand and full buckets."
  },
  {
   "property": "C63",
   "status": "proved",
   "theorems": [
    "C63_radius"
   ],
   "note": "Records entered by hand and boot nodes reset the radius (C54_by_hand_refuted)."
  },
  {
   "property": "C64",
   "status": "proved",
   "theorems": [
    "C64_honest_merge_to_capella",
    "C64_honest_after_capella"
   ],
   "note": ""
  },
  {
   "property": "C65",
   "status": "partial",
   "theorems": [
    "C65_bound",
    "C65_bootstrap_key_refuted",
    "C65_updates_key_refuted"
   ],
   "note": "What validation does check is C65_bound. Refuted: a bootstrap is accepted for every block root, updates for any periods (C65_bootstrap_key_refuted, C65_updates_key_refuted)."
  },
  {
   "property": "C66",
   "status": "partial",
   "theorems": [
    "C66_short_value_refuted",
    "C66_short_update_refuted",
    "C66_no_panic",
    "C66_fork_round_trip"
   ],
   "note": "Proved for values of at least four bytes; shorter ones crash the validation task (C66_short_value_refuted, C66_short_update_refuted)."
  },
  {
   "property": "C67",
   "status": "partial",
   "theorems": [
    "C67_trusted_root",
    "C67_planted_root_refuted"
   ],
   "note": "Proved when every bootstrap was checked by a running light client; refuted otherwise (C67_planted_root_refuted)."
  },
  {
   "property": "C68",
   "status": "partial",
   "theorems": [
    "C68_queries",
    "C68_unbounded_refuted"
   ],
   "note": "One query at most except for update ranges, where the key itself sets the number (C68_unbounded_refuted)."
  },
  {
   "property": "C69",
   "status": "partial",
   "theorems": [
    "C69_catch_up",
    "C69_follows",
    "C69_behind_refuted"
   ],
   "note": "Catching up and following are proved; a client that falls behind the committees it knows stays stuck until it is restarted (C69_behind_refuted), because advance gives up before it fetches a committee."
  },
  {
   "property": "C70",
   "status": "partial",
   "theorems": [
    "C70_rule",
    "C70_single_signer_refuted"
   ],
   "note": "The rule is proved; right after the bootstrap it lets a single signature decide (C70_single_signer_refuted)."
  },
  {
   "property": "C71",
   "status": "proved",
   "theorems": [
    "C71_round_trip"
   ],
   "note": ""
  },
  {
   "property": "C72",
   "status": "proved",
   "theorems": [
    "C72_append",
    "C72_cut",
    "C72_read",
    "C72_readers_agree",
    "C72_only_records"
   ],
   "note": ""
  },
  {
   "property": "C73",
   "status": "partial",
   "theorems": [
    "C73_round_trip",
    "C73_count_refuted",
    "C73_reads_the_file"
   ],
   "note": "Round trip and what reading returns are proved; any index count above the number of blocks makes reading panic (C73_count_refuted)."
  },
  {
   "property": "C74",
   "status": "partial",
   "theorems": [
    "C74_round_trip",
    "C74_count_refuted",
    "C74_count_less_refuted",
    "C74_writer",
    "C74_reads_the_file"
   ],
   "note": "Round trip and index are proved; a count in the index above 8192 makes reading panic and one below it silently drops blocks (C74_count_refuted, C74_count_less_refuted)."
  },
  {
   "property": "C75",
   "status": "partial",
   "theorems": [
    "C75_round_trip",
    "C75_forks",
    "C75_early_refuted",
    "C75_short_refuted",
    "C75_reads_the_file"
   ],
   "note": "Round trip proved from the merge on; every era file from before it, the empty file and the version record alone make reading panic (C75_early_refuted, C75_short_refuted)."
  },
  {
   "property": "C76",
   "status": "partial",
   "theorems": [
    "C76_round_trip",
    "C76_refused_unchanged",
    "C76_cut_refuted",
    "C76_cut",
    "C76_reads_the_file"
   ],
   "note": "Round trip and the accepted sequences are proved; a file cut inside an account record is read as complete (C76_cut_refuted), one cut inside storage panics (C76_cut)."
  },
  {
   "property": "C77",
   "status": "partial",
   "theorems": [
    "C77_round_trip",
    "C77_only_own_bytes",
    "C77_no_panic",
    "C77_unfit_header_refuted",
    "C77_many_receipts_refuted",
    "C77_uncles_refuted"
   ],
   "note": "Proved for values within the limits. Values beyond them are encoded without an error but not read back: C77_unfit_header_refuted, C77_many_receipts_refuted, C77_uncles_refuted."
  },
  {
   "property": "C78",
   "status": "partial",
   "theorems": [
    "C78_round_trip",
    "C78_only_own_bytes",
    "C78_no_panic",
    "C78_client_info",
    "C78_long_info_refuted",
    "C78_dash_refuted"
   ],
   "note": "Proved for values within the limits. A client description above 200 bytes is cut silently (C78_long_info_refuted), one whose system or architecture contains a dash makes the whole payload unreadable (C78_dash_refuted)."
  },
  {
   "property": "C79",
   "status": "partial",
   "theorems": [
    "C79_exchange",
    "C79_fits",
    "C79_listed",
    "C79_next_ping",
    "C79_reply",
    "C79_no_panic",
    "C79_ignored",
    "C79_unreadable_refuted"
   ],
   "note": "All parts proved except the last reply: a ping whose payload cannot be read is answered as if it could (C79_unreadable_refuted)."
  },
  {
   "property": "C80",
   "status": "proved",
   "theorems": [
    "C80_other_version_refused",
    "C80_own_content",
    "C80_one_store",
    "C80_tables",
    "C80_opens"
   ],
   "note": ""
  },
  {
   "property": "C81",
   "status": "partial",
   "theorems": [
    "C81_contents",
    "C81_usage",
    "C81_repeated_insert_refuted"
   ],
   "note": "The counts are exact as long as nothing is put that is already there, and never too low; content put again is counted again until the next restart (C81_repeated_insert_refuted)."
  },
  {
   "property": "C82",
   "status": "partial",
   "theorems": [
    "C82_add",
    "C82_added_not_found_refuted",
    "C82_delete",
    "C82_own",
    "C82_lookup",
    "C82_lookup_partial",
    "C82_other_node_refuted",
    "C82_answer_not_checked_refuted",
    "C82_search_connected_refuted"
   ],
   "note": "Adding, getting and removing are proved, and where each result of a lookup comes from. That the result is the record of the node asked for holds only if the answers are (C82_lookup_partial); in general the record of another node is returned (C82_other_node_refuted, C82_answer_not_checked_refuted). A record can be added and not be retrievable (C82_added_not_found_refuted)."
  },
  {
   "property": "C83",
   "status": "partial",
   "theorems": [
    "C83_answered_once",
    "C83_own_answer",
    "C83_all_answered",
    "C83_find_nodes",
    "C83_ping",
    "C83_error_ping_refuted",
    "C83_found_content_valid",
    "C83_found_content_arrives",
    "C83_find_content_refused",
    "C83_sent_keys",
    "C83_offer_trace",
    "C83_offer_codes_refuted"
   ],
   "note": "All parts proved for distinct request ids (they are random 128 bit numbers). Error payloads supplied by the user are sent in pings (C83_error_ping_refuted); the number of accept codes is not compared with the number of items offered (C83_offer_codes_refuted)."
  },
  {
   "property": "C84",
   "status": "partial",
   "theorems": [
    "C84_sound",
    "C84_known",
    "C84_found",
    "C84_due",
    "C84_offered",
    "C84_scheduled_partial",
    "C84_scheduled_refuted",
    "C84_newest",
    "C84_enough",
    "C84_init_refuted",
    "C84_init_result"
   ],
   "note": "All parts proved over all histories, except: a known node that answers a check with another kind of payload is not scheduled again (C84_scheduled_partial, C84_scheduled_refuted), and setting up goes on for ever, without an error, while no node answers (C84_init_refuted). Checks are atomic steps. The rounding of the stop condition is modelled (C84_enough: exactly as for rational numbers)."
  },
  {
   "property": "C85",
   "status": "proved",
   "theorems": [
    "C85_weight",
    "C85_small",
    "C85_left_out",
    "C85_selected"
   ],
   "note": "The random choice is any that takes as many as asked for or all; that heavier nodes are chosen more often is a statement about probabilities and not modelled."
  },
  {
   "property": "C86",
   "status": "partial",
   "theorems": [
    "C86_rules_partial",
    "C86_rules_refuted",
    "C86_enabled",
    "C86_block_number",
    "C86_uses"
   ],
   "note": "For blocks before Prague (22431084). From that block on the rules of Cancun are chosen (C86_rules_refuted)."
  },
  {
   "property": "C87",
   "status": "proved",
   "theorems": [
    "C87_balances",
    "C87_supply",
    "C87_old_uncle"
   ],
   "note": "Balances are bounded so that no sum overflows. The effects of [drain_balances] and [increment_balances] are those of the revm crate as documented."
  },
  {
   "property": "C88",
   "status": "proved",
   "theorems": [
    "C88_slices",
    "C88_one",
    "C88_paths",
    "C88_refused"
   ],
   "note": "Slices are not used by the programs at the pinned commit (the walks get no filter). A leaf whose path is short can be in two slices (C88_example)."
  },
  {
   "property": "C89",
   "status": "proved",
   "theorems": [
    "C89_whole",
    "C89_slice",
    "C89_changed",
    "C89_missing_refuted"
   ],
   "note": "The database returns what was stored under a hash, or nothing. A missing node in a walk over a whole trie is a panic (C89_missing_refuted)."
  },
  {
   "property": "C90",
   "status": "proved",
   "theorems": [
    "C90_snapshot",
    "C90_changed",
    "C90_shared",
    "C90_long_code_refuted"
   ],
   "note": "For codes of at most 32768 bytes; longer ones are cut and what is sent is refused (C90_long_code_refuted). The content is checked with the header check that is switched off at the pinned commit, and so also without it. Errors of offers are not modelled."
  },
  {
   "property": "C91",
   "status": "partial",
   "theorems": [
    "C91_history",
    "C91_code_as_address_refuted",
    "C91_code_as_number_refuted"
   ],
   "note": "For histories in which the keys of the addresses, codes and block numbers that occur are different. A contract can be deployed whose code is the address of an account or a block number; then it replaces that entry (C91_code_as_address_refuted, C91_code_as_number_refuted). Slots of accounts that were never created are errors, as in the code."
  },
  {
   "property": "C92",
   "status": "partial",
   "theorems": [
    "C92_root",
    "C92_restart",
    "C92_crash_refuted",
    "C92_mismatch_refuted",
    "C92_storage_crash_refuted"
   ],
   "note": "For a stop between commits. A crash inside a commit, or a commit whose root does not match, leaves new entries at the old position (C92_crash_refuted, C92_mismatch_refuted, C92_storage_crash_refuted). [eth_trie] is modelled by its contents and an arbitrary root function."
  },
  {
   "property": "C93",
   "status": "partial",
   "theorems": [
    "C93_window",
    "C93_served",
    "C93_genesis_refuted",
    "C93_crash_refuted"
   ],
   "note": "Except for block 0, whose hash is never stored (C93_genesis_refuted), and after a crash that lost executed blocks (C93_crash_refuted)."
  },
  {
   "property": "C94",
   "status": "partial",
   "theorems": [
    "C94_order",
    "C94_done",
    "C94_restart",
    "C94_retry_refuted",
    "C94_download_refuted",
    "C94_reads"
   ],
   "note": "While calls succeed, and after a restart. Without a restart, a block that the EVM rejects once is left out by the next call (C94_retry_refuted), and one failed download makes all later calls fail (C94_download_refuted)."
  },
  {
   "property": "C95",
   "status": "partial",
   "theorems": [
    "C95_round_trip",
    "C95_sound",
    "C95_retry_refuted",
    "C95_hashes_refuted"
   ],
   "note": "For an import into a new database that succeeds. What a failed import wrote remains and is read after the next one (C95_retry_refuted); a failed download of the block hashes leaves a node that starts without them and cannot import again (C95_hashes_refuted). C95_sound assumes that keys of accounts, codes and block numbers are different."
  },
  {
   "property": "C96",
   "status": "partial",
   "theorems": [
    "C96_sound",
    "C96_rpc_sound",
    "C96_complete",
    "C96_rpc",
    "C96_empty_storage_refuted",
    "C96_unread_refuted",
    "C96_proof_answer_refuted"
   ],
   "note": "Sound for all answers that validation or the store let through, if none of them is another node with the same hash. Complete except for the slots of accounts without storage, whose reads fail (C96_empty_storage_refuted). One answer in the form with proof makes a read fail (C96_proof_answer_refuted); codes are read only after their account, and block hashes not at all (C96_unread_refuted)."
  },
  {
   "property": "C97",
   "status": "partial",
   "theorems": [
    "C97_answers",
    "C97_block",
    "C97_unsupported",
    "C97_complete",
    "C97_stripped_refuted",
    "C97_state",
    "C97_state_complete"
   ],
   "note": "Sound for every chain, every node that took content only from the network and every answer of peers, unless two headers of the chain have one hash. The withdrawals are the right ones or missing: a peer can leave them out (C97_stripped_refuted). Tags such as latest and full transactions are not supported (C97_unsupported). Complete if the lookups give header and body, or header and state (C97_complete, C97_state_complete)."
  },
  {
   "property": "C98",
   "status": "partial",
   "theorems": [
    "C98_sound",
    "C98_ends",
    "C98_complete_partial",
    "C98_create_refuted",
    "C98_type_refuted",
    "C98_sender_refuted",
    "C98_price_refuted"
   ],
   "note": "Sound for every EVM (a program that asks a database), every request and every answer of peers; before block 22431084 under the right rules (C86). Complete for executions that read no hash of a block and no slot of an account without storage (C98_complete_partial). Missing: a request without a recipient is not a creation, its type and authorizations are ignored, a fee cap is paid in full, and senders that have sent transactions or cannot pay for a whole block are refused unless they name a nonce and a price (C98_*_refuted)."
  },
  {
   "property": "C99",
   "status": "partial",
   "theorems": [
    "C99_transaction",
    "C99_block_partial",
    "C99_tracing",
    "C99_counts",
    "C99_payment_refuted",
    "C99_7702_refuted"
   ],
   "note": "An equivalence, for every EVM, before block 22431084 (Prague, C86) and for blocks without transactions of EIP-7702, which stop the program (C99_7702_refuted); tracing and history do not matter for any block (C99_tracing). Missing: a payment that fails is ignored and the block reported as executed (C99_payment_refuted); the EVM and the cache of its database are arguments."
  },
  {
   "property": "C100",
   "status": "proved",
   "theorems": [
    "C100_block",
    "C100_panic",
    "C100_trees",
    "C100_accepted"
   ],
   "note": "An equivalence (C100_block) with a separate description of the header (Builders_Spec.describes), and acceptance of header, proof and body for every block of the chain (C100_accepted, on C64); the trees of payload, body and block against the containers of the specification (C100_trees). The codecs of transactions, the roots of tries and lists and the hash of requests are arguments."
  },
  {
   "property": "C101",
   "status": "partial",
   "theorems": [
    "C101_search",
    "C101_file",
    "C101_retry_refuted",
    "C101_endless_refuted",
    "C101_honest"
   ],
   "note": "Proved for the answers of all servers: contents of a finished file (C101_file), the search (C101_search) and success with honest servers (C101_honest). Missing because false of the code: that a failed run can be repeated (C101_retry_refuted) and that every run ends (C101_endless_refuted). The servers answer the same question in the same way during a run."
  },
  {
   "property": "C102",
   "status": "partial",
   "theorems": [
    "C102_sequence",
    "C102_endless_refuted",
    "C102_skipped_refuted",
    "C102_honest",
    "C102_restart",
    "C102_listing_refuted",
    "C102_silent_refuted"
   ],
   "note": "Proved for the answers of all servers in all rounds: the sequence and the contents of the files (C102_sequence), success with complete servers (C102_honest) and the restart (C102_restart). Missing because false of the code: success when the first slot after a period has no state (C102_skipped_refuted), that every attempt ends (C102_endless_refuted), that a listing that breaks off is noticed (C102_listing_refuted) and that a failure is reported (C102_silent_refuted). Within one file a server answers the same question in the same way."
  },
  {
   "property": "C103",
   "status": "partial",
   "theorems": [
    "C103_epochs",
    "C103_last_refuted",
    "C103_directory",
    "C103_blocks",
    "C103_valid",
    "C103_order",
    "C103_limits",
    "C103_complete",
    "C103_progress",
    "C103_steps",
    "C103_zero_refuted",
    "C103_missing_refuted",
    "C103_unproved_refuted",
    "C103_outside_refuted",
    "C103_accepted"
   ],
   "note": "Proved for all servers, peers and schedules: the epochs of a range (C103_epochs, C103_directory), the blocks (C103_blocks), what is offered (C103_valid, C103_accepted), the order (C103_order), the limits (C103_limits), the report (C103_complete), and that it is reached (C103_progress, C103_steps). Missing because false of the code: that proofs with historical summaries are checked (C103_unproved_refuted), that only blocks of the range are offered by a wrong file (C103_outside_refuted), that a range past the last file is refused (C103_missing_refuted), the last epoch with overflow checks (C103_last_refuted) and progress with a limit of 0 (C103_zero_refuted)."
  },
  {
   "property": "C104",
   "status": "partial",
   "theorems": [
    "C104_bundle",
    "C104_quiet",
    "C104_receipts",
    "C104_stops",
    "C104_reorg_refuted",
    "C104_finalized",
    "C104_skipped_refuted",
    "C104_lost_refuted",
    "C104_honest",
    "C104_proven",
    "C104_contents",
    "C104_accepted",
    "C104_refused_refuted",
    "C104_headers",
    "C104_roots_refuted"
   ],
   "note": "Proved: what a bundle contains (C104_bundle, C104_receipts), when nothing is done (C104_quiet), that only an unsound block, or an overflow in a debug build, stops the bridge (C104_stops), the run along a chain (C104_honest, C104_proven), the gossip of a finalized period (C104_finalized, C104_headers), the contents (C104_contents) and that nodes accept bodies and receipts (C104_accepted). Missing because false of the code: right receipts after a re-org (C104_reorg_refuted), all blocks when the first slot of a period is empty (C104_skipped_refuted, C104_roots_refuted) or when a checkpoint was missed (C104_lost_refuted), and the acceptance of headers without proofs (C104_refused_refuted)."
  },
  {
   "property": "C105",
   "status": "partial",
   "theorems": [
    "C105_mode",
    "C105_written",
    "C105_mode_panics_refuted",
    "C105_range",
    "C105_empty_range_refuted",
    "C105_id",
    "C105_one_bridge",
    "C105_subnetworks",
    "C105_names",
    "C105_trace",
    "C105_key",
    "C105_dependencies",
    "C105_work",
    "C105_unsupported_refuted"
   ],
   "note": "Proved: exactly which strings are accepted and what they mean (C105_mode, C105_written, C105_range, C105_id, C105_subnetworks, C105_names, C105_trace, C105_key), one bridge for each content (C105_one_bridge), and what a bridge does (C105_dependencies, C105_work). Missing because false of the code: a message instead of a panic for bad arguments (C105_mode_panics_refuted, C105_unsupported_refuted), and the refusal of a range that ends before it begins (C105_empty_range_refuted)."
  },
  {
   "property": "C106",
   "status": "partial",
   "theorems": [
    "C106_contents",
    "C106_accepted",
    "C106_summaries_proof",
    "C106_finality",
    "C106_updates",
    "C106_bootstraps",
    "C106_states",
    "C106_twice_refuted",
    "C106_lost_refuted",
    "C106_stuck_refuted",
    "C106_epoch_twice_refuted",
    "C106_tick"
   ],
   "note": "Proved for every interleaving: what is offered and to whom (C106_contents), and when nodes accept it (C106_accepted, C106_summaries_proof). Proved for ticks that do not overlap in the deciding part: each slot, period and root once, one download at a time (C106_finality, C106_updates, C106_bootstraps, C106_states), and that a tick offers everything that is new (C106_tick). Missing because false of the code: the same for overlapping ticks (C106_twice_refuted), for epochs (C106_epoch_twice_refuted), and recovery from a failed download of a state (C106_stuck_refuted) or a failure of the census (C106_lost_refuted)."
  },
  {
   "property": "C107",
   "status": "partial",
   "theorems": [
    "C107_data_dir",
    "C107_identity",
    "C107_one_identity",
    "C107_generated",
    "C107_given",
    "C107_directories",
    "C107_directory",
    "C107_shared_refuted",
    "C107_crash_refuted",
    "C107_crash_points",
    "C107_checkpoint",
    "C107_checkpoint_lost_refuted"
   ],
   "note": "Proved: one identity through all histories and crashes (C107_identity, C107_one_identity, C107_generated), given keys (C107_given), directories (C107_data_dir, C107_directories, C107_directory), the checkpoint (C107_checkpoint). Missing because false of the code: that a crash does no lasting harm (C107_crash_refuted with C107_crash_points: the node never starts again; C107_checkpoint_lost_refuted: the checkpoint before is lost), and that nodes do not share directories (C107_shared_refuted)."
  },
  {
   "property": "C108",
   "status": "partial",
   "theorems": [
    "C108_talk",
    "C108_sent",
    "C108_networks",
    "C108_testnets_refuted",
    "C108_panic",
    "C108_events",
    "C108_queues",
    "C108_start",
    "C108_answer",
    "C108_empty"
   ],
   "note": "Proved: who gets a request and who answers (C108_talk, C108_sent, C108_answer, C108_empty, C108_panic), events (C108_events), the queues (C108_queues, C108_start), main network against others (C108_networks). Missing because false of the code: that the test networks do not serve each other (C108_testnets_refuted)."
  },
  {
   "property": "C109",
   "status": "partial",
   "theorems": [
    "C109_checkpoint",
    "C109_found",
    "C109_majority",
    "C109_one_service_refuted",
    "C109_start",
    "C109_panic_refuted",
    "C109_tie_refuted",
    "C109_url"
   ],
   "note": "Proved: which root is taken (C109_checkpoint, C109_found, C109_majority), the order of attempts (C109_start), the address (C109_url). Missing because false of the code: that one service cannot decide alone (C109_one_service_refuted), that the answer is determined (C109_tie_refuted), that the start never crashes (C109_panic_refuted)."
  },
  {
   "property": "C110",
   "status": "partial",
   "theorems": [
    "C110_source",
    "C110_nodes",
    "C110_records",
    "C110_answers",
    "C110_failures",
    "C110_answer",
    "C110_once",
    "C110_all",
    "C110_found",
    "C110_local",
    "C110_cancelled",
    "C110_hidden_refuted",
    "C110_forgotten_refuted"
   ],
   "note": "Proved: source, nodes, records, answers and failures for all sequences of calls (C110_source, C110_nodes, C110_records, C110_answers, C110_failures); for lookups C110_answer, C110_once, C110_all, C110_found, C110_cancelled, C110_local. Missing because false of the code: that it shows all that every node named (C110_hidden_refuted, C110_forgotten_refuted)."
  },
  {
   "property": "C111",
   "status": "partial",
   "theorems": [
    "C111_skipped",
    "C111_asked",
    "C111_no_panic",
    "C111_result",
    "C111_complete",
    "C111_target_refuted",
    "C111_record_refuted",
    "C111_failure_refuted",
    "C111_self_refuted",
    "C111_stale_refuted",
    "C111_empty"
   ],
   "note": "Proved: which nodes are asked and how (C111_asked, C111_skipped), the result (C111_result, C111_complete, C111_empty), no panic (C111_no_panic). Missing because false of the code: that a search for a node can find it (C111_target_refuted, C111_record_refuted), that failed requests are noticed at once (C111_failure_refuted), that a node does not ask itself (C111_self_refuted), that the newest record told is returned (C111_stale_refuted). The request itself and its answer are C83 and C37."
  },
  {
   "property": "C112",
   "status": "partial",
   "theorems": [
    "C112_bootnodes",
    "C112_targets",
    "C112_far_half_refuted",
    "C112_no_lookup_refuted",
    "C112_refresh",
    "C112_recovers"
   ],
   "note": "Proved: bootnodes (C112_bootnodes), targets (C112_targets), refreshes (C112_refresh, C112_recovers). Missing because false of the code: that the lookups at the start happen (C112_no_lookup_refuted), and that their targets cover the farther half of the ids (C112_far_half_refuted). The bootnodes are taken to have different ids. The order of pings and refreshes in time is not modelled: the interval is 60 seconds."
  },
  {
   "property": "C113",
   "status": "partial",
   "theorems": [
    "C113_get",
    "C113_trace_get",
    "C113_local",
    "C113_local_code_refuted",
    "C113_store",
    "C113_offer",
    "C113_unchanged",
    "C113_find",
    "C113_ping",
    "C113_codes",
    "C113_strings",
    "C113_reasons"
   ],
   "note": "Proved: C113_get, C113_trace_get, C113_local, C113_store, C113_offer, C113_unchanged, C113_find, C113_ping, C113_codes and C113_reasons (codes and texts say the kind of error), C113_strings (strings of JSON are read back). Of serde_json it is assumed that it reads back the text of an error it wrote, and that the text of an object or list starts as such; C113_example has a reader that does. Missing because false of the code: the code -39001 for content that is not in the local store (C113_local_code_refuted). The methods for records of nodes, pages of keys, radius and routing table hand on C83, C50, C54."
  },
  {
   "property": "C114",
   "status": "partial",
   "theorems": [
    "C114_selection",
    "C114_listeners",
    "C114_default_ports_refuted",
    "C114_where",
    "C114_methods",
    "C114_networks",
    "C114_no_panic",
    "C114_repeated_refuted",
    "C114_same_port_refuted",
    "C114_everywhere_refuted",
    "C114_cors",
    "C114_cors_space_refuted",
    "C114_cors_conflict",
    "C114_origins"
   ],
   "note": "Proved: C114_where, C114_methods, C114_networks, C114_no_panic, C114_selection, C114_listeners, C114_cors, C114_origins, C114_cors_conflict. Missing because false of the code: a start with every list of networks the command line accepts (C114_repeated_refuted), one server for one port (C114_same_port_refuted), no server on other addresses than the configured one (C114_everywhere_refuted), default ports (C114_default_ports_refuted), spaces in lists of origins (C114_cors_space_refuted). What the set-up of a network does is not modelled here."
  },
  {
   "property": "C115",
   "status": "partial",
   "theorems": [
    "C115_beacon",
    "C115_updates",
    "C115_endpoints",
    "C115_block",
    "C115_body",
    "C115_latest",
    "C115_receipts",
    "C115_receipts_wait",
    "C115_batches",
    "C115_start",
    "C115_secrets",
    "C115_events",
    "C115_charset_refuted",
    "C115_path_refuted",
    "C115_error_refuted",
    "C115_height_refuted",
    "C115_order_refuted",
    "C115_secrets_refuted"
   ],
   "note": "Proved: C115_beacon, C115_updates, C115_endpoints, C115_block, C115_body, C115_latest, C115_receipts, C115_receipts_wait, C115_batches, C115_start, C115_secrets, C115_events. Missing because false of the code: answers in JSON with a named character set (C115_charset_refuted), providers under a path (C115_path_refuted), the second provider after an error in JSON (C115_error_refuted), the block of the height asked for (C115_height_refuted), batches answered in another order (C115_order_refuted), secrets for their operator only (C115_secrets_refuted). Redirections and time are not modelled."
  },
  {
   "property": "C116",
   "status": "partial",
   "theorems": [
    "C116_blocks",
    "C116_snapshot",
    "C116_again",
    "C116_deleted_refuted",
    "C116_number_refuted",
    "C116_stuck_refuted"
   ],
   "note": "Proved: C116_blocks, C116_snapshot, C116_again. Missing because false of the code: a database that survives a launch that fails (C116_deleted_refuted), the snapshot that was asked for (C116_number_refuted; its root is not compared with the block of the chain either, C116_snapshot_example), a launch that can be repeated after a failed download (C116_stuck_refuted). What is offered for the nodes of a trie is in other properties."
  },
  {
   "property": "C117",
   "status": "partial",
   "theorems": [
    "C117_verified",
    "C117_not_ahead",
    "C117_caught_up",
    "C117_told",
    "C117_lost_refuted",
    "C117_minority_refuted",
    "C117_before_refuted",
    "C117_attempts"
   ],
   "note": "Proved: C117_verified, C117_not_ahead, C117_caught_up (order of the published updates as hypothesis), C117_told, C117_attempts. Missing because false of the code: a finalized header only with two thirds of the committee (C117_minority_refuted), being as far as the client without the order (C117_lost_refuted) and right after the first sync (C117_before_refuted)."
  },
  {
   "property": "C118",
   "status": "partial",
   "theorems": [
    "C118_checkpoint",
    "C118_settings",
    "C118_saved",
    "C118_torn",
    "C118_torn_refuted",
    "C118_start",
    "C118_trust",
    "C118_replaced_refuted",
    "C118_portal_panics_refuted",
    "C118_port_refuted",
    "C118_pace",
    "C118_pace_refuted"
   ],
   "note": "Proved: C118_checkpoint, C118_settings, C118_saved, C118_torn, C118_start, C118_trust, C118_pace. Missing because false of the code: the checkpoint saved before survives a crash while the next is saved (C118_torn_refuted), a root of a service is dropped if the sync from it fails (C118_replaced_refuted), services over the portal network (C118_portal_panics_refuted), a start after a start that failed if the client has a server (C118_port_refuted), every slot if asking takes four seconds (C118_pace_refuted)."
  },
  {
   "property": "C119",
   "status": "partial",
   "theorems": [
    "C119_address",
    "C119_refused",
    "C119_contact",
    "C119_ipv6_refuted",
    "C119_port_refuted",
    "C119_fresh",
    "C119_same_second_refuted",
    "C119_start",
    "C119_bootnode_refuted",
    "C119_cache",
    "C119_kept",
    "C119_right_node",
    "C119_deleted",
    "C119_deleted_refuted",
    "C119_lookup",
    "C119_lookup_finds",
    "C119_silent_refuted",
    "C119_distance_refuted",
    "C119_utp",
    "C119_lease",
    "C119_lease_refuted"
   ],
   "note": "Proved: C119_address, C119_refused, C119_contact, C119_fresh, C119_start, C119_cache, C119_kept, C119_right_node, C119_deleted, C119_lookup, C119_lookup_finds, C119_utp, C119_lease. Missing because false of the code: an address of IPv6 (C119_ipv6_refuted), the port the user gives (C119_port_refuted), two starts in one second (C119_same_second_refuted), a start with a bootnode that is refused (C119_bootnode_refuted), a record is gone after it is deleted, and the newest is given (C119_deleted_refuted), a lookup goes on after a node that does not answer (C119_silent_refuted) and finds what a named node knows (C119_distance_refuted), the mapping outlives a renewal that fails (C119_lease_refuted)."
  },
  {
   "property": "C120",
   "status": "partial",
   "theorems": [
    "C120_keys",
    "C120_spread",
    "C120_even_refuted",
    "C120_wait",
    "C120_wait_ends",
    "C120_rounds",
    "C120_late_refuted",
    "C120_report",
    "C120_report_once",
    "C120_report_none",
    "C120_reasons"
   ],
   "note": "Proved: C120_keys, C120_spread, C120_wait, C120_wait_ends, C120_rounds, C120_report, C120_report_once, C120_report_none, C120_reasons. Missing because false of the code: the ids are spread over all ids from 128 keys on (C120_even_refuted), a slot is served when a round is a slot late (C120_late_refuted)."
  },
  {
   "property": "C121",
   "status": "partial",
   "theorems": [
    "C121_check",
    "C121_export",
    "C121_roots_refuted",
    "C121_cut_refuted"
   ],
   "note": "Proved: C121_check (both directions), C121_export. Missing because false of the code: a file whose roots are wrong is refused (C121_roots_refuted), a file that is cut off after an account is refused (C121_cut_refuted)."
  },
  {
   "property": "C122",
   "status": "partial",
   "theorems": [
    "C122_names",
    "C122_new",
    "C122_supports",
    "C122_common",
    "C122_agree",
    "C122_no_gap",
    "C122_read",
    "C122_round_trip",
    "C122_only",
    "C122_unspecified_refuted"
   ],
   "note": "Proved: C122_names, C122_new, C122_supports, C122_common, C122_agree, C122_no_gap, C122_read, C122_round_trip, C122_only. Missing because false of the code: equal values are equal in order for versions that are made by hand (C122_unspecified_refuted)."
  },
  {
   "property": "C123",
   "status": "partial",
   "theorems": [
    "C123_transfers",
    "C123_answers",
    "C123_told",
    "C123_summary",
    "C123_messages",
    "C123_labels",
    "C123_head",
    "C123_lag",
    "C123_delays",
    "C123_lag_refuted",
    "C123_ticks",
    "C123_ticks_refuted",
    "C123_radius",
    "C123_radius_ends",
    "C123_precision",
    "C123_entries",
    "C123_entries_refuted",
    "C123_entries_restart_refuted"
   ],
   "note": "Proved: C123_transfers, C123_answers, C123_told, C123_summary, C123_messages, C123_labels, C123_head, C123_lag, C123_delays, C123_ticks, C123_radius, C123_radius_ends, C123_precision, C123_entries. Missing because false of the code: the chain head before the first update (C123_lag_refuted), the ticks when the clock is set back (C123_ticks_refuted), the number of entries after content is stored again or the node is started again (C123_entries_refuted, C123_entries_restart_refuted)."
  },
  {
   "property": "C124",
   "status": "partial",
   "theorems": [
    "C124_keys",
    "C124_keys_refuted",
    "C124_signatures",
    "C124_signatures_refuted",
    "C124_commitments",
    "C124_display",
    "C124_versioned",
    "C124_fixed",
    "C124_lists",
    "C124_numbers",
    "C124_numbers_refuted",
    "C124_transactions",
    "C124_transactions_refuted"
   ],
   "note": "Proved: C124_keys, C124_signatures, C124_commitments, C124_display, C124_versioned, C124_fixed, C124_lists, C124_numbers, C124_transactions. Missing because false of the code: keys, signatures and transactions of a wrong length are refused (C124_keys_refuted: cut or filled; C124_signatures_refuted: a panic; C124_transactions_refuted: cut), numbers without digits are refused (C124_numbers_refuted)."
  },
  {
   "property": "C125",
   "status": "partial",
   "theorems": [
    "C125_provider",
    "C125_paths",
    "C125_chain",
    "C125_portal",
    "C125_clock_refuted",
    "C125_status_refuted",
    "C125_count_refuted",
    "C125_says"
   ],
   "note": "Proved: C125_provider, C125_paths, C125_chain, C125_portal, C125_says. Missing because false of the code: a reply with the status of an error is refused (C125_status_refuted: the status is not looked at), at most as many updates as were asked for are taken (C125_count_refuted), a wrong clock does not stop the client (C125_clock_refuted: before the genesis it panics)."
  },
  {
   "property": "C126",
   "status": "proved",
   "theorems": [
    "C126_questions",
    "C126_safety",
    "C126_monotone",
    "C126_other_chain",
    "C126_advance"
   ],
   "note": "Proved: C126_questions, C126_advance, C126_other_chain, C126_safety, C126_monotone. The safety is that of C48 (up to a broken signature or hash), now for sources that answer in any way; C126_case meets its hypotheses, over the network and with a provider."
  },
  {
   "property": "C127",
   "status": "proved",
   "theorems": [
    "C127_storage",
    "C127_state",
    "C127_position",
    "C127_by_hash",
    "C127_panic",
    "C127_nothing",
    "C127_empty_refuted"
   ],
   "note": "Proved: C127_storage, C127_state, C127_position, C127_by_hash, C127_panic (a key that has not 32 bytes stops the program), C127_nothing. C127_case meets the hypotheses. C127_empty_refuted is about the shortcut for empty tries: it is for the hash of nothing, which is the root of no trie. Accounts, codes and block hashes share one area (see C91)."
  },
  {
   "property": "C128",
   "status": "partial",
   "theorems": [
    "C128_texts",
    "C128_clients",
    "C128_execution_refuted",
    "C128_offers",
    "C128_series",
    "C128_times",
    "C128_time",
    "C128_running",
    "C128_headers_refuted",
    "C128_names_refuted",
    "C128_timer",
    "C128_timers"
   ],
   "note": "Proved: C128_offers, C128_series, C128_times, C128_time, C128_running, C128_texts, C128_clients, C128_timer, C128_timers. Missing because false of the code: all offers are counted (C128_headers_refuted: series of headers are not), the number of series is not up to the peers (C128_names_refuted: each name of a client makes one), the text of a type is a name of it (C128_execution_refuted)."
  },
  {
   "property": "C129",
   "status": "partial",
   "theorems": [
    "C129_links",
    "C129_consecutive",
    "C129_era1",
    "C129_complete",
    "C129_panic",
    "C129_e2ss",
    "C129_dash_refuted",
    "C129_shuffled"
   ],
   "note": "Proved: C129_links, C129_consecutive, C129_era1, C129_complete, C129_e2ss, C129_panic, C129_shuffled. Missing because false of the code: a page with a bad link is an error (C129_panic: it stops the program; C129_dash_refuted: a dash in the path before the name is enough). The HTTP client, the parser of HTML and the joining of URLs are arguments."
  },
  {
   "property": "C130",
   "status": "partial",
   "theorems": [
    "C130_object",
    "C130_whole",
    "C130_served",
    "C130_left_refuted",
    "C130_empty_refuted"
   ],
   "note": "Proved: C130_object, C130_whole, C130_served. Missing because false of the code: a failed upload leaves nothing behind (C130_left_refuted: its parts stay, the upload is never aborted), every file can be uploaded (C130_empty_refuted: an empty one stops the program). The rules of the bucket are those of S3 as documented; other clients of the bucket are not modelled."
  },
  {
   "property": "C131",
   "status": "partial",
   "theorems": [
    "C131_index",
    "C131_distinct",
    "C131_order",
    "C131_order_refuted",
    "C131_resume",
    "C131_page"
   ],
   "note": "Proved: C131_index, C131_distinct, C131_order, C131_resume, C131_page. Missing because false of the code: the order of names for numbers of 100000 and more (C131_order_refuted: after history file 100000 the writer starts at 100000 again); a list that fails midway is C102_listing_refuted."
  },
  {
   "property": "C132",
   "status": "partial",
   "theorems": [
    "C132_retries",
    "C132_status_refuted",
    "C132_unreached_refuted",
    "C132_file",
    "C132_unknown",
    "C132_safe",
    "C132_empty_refuted",
    "C132_length_refuted",
    "C132_old_refuted"
   ],
   "note": "Proved: C132_retries, C132_file, C132_unknown, C132_safe. Missing because false of the code: an error page is no file (C132_status_refuted), a failed connection is tried again (C132_unreached_refuted), progress reports never panic (C132_empty_refuted, C132_length_refuted), a failed download leaves the old file (C132_old_refuted)."
  }
 ]
}
