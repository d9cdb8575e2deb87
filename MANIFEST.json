{
 "claims": [
  {
   "property": "C01",
   "status": "proved",
   "theorems": [
    "C01_bigint_encoding_is_shortest",
    "C01_shortest_unique",
    "C01_bigint_decode_value",
    "C01_bigint_roundtrip",
    "C01_bigint_injective"
   ],
   "note": "Signed big-integer byte codec is lossless"
  },
  {
   "property": "C02",
   "status": "proved",
   "theorems": [
    "C02_int64_encode",
    "C02_uint64_encode",
    "C02_int64_decode",
    "C02_uint64_decode",
    "C02_int64_roundtrip",
    "C02_uint64_roundtrip",
    "C02_size_encode",
    "C02_size_decode",
    "C02_size_roundtrip"
   ],
   "note": "Fixed-width integer byte codecs agree with the big-integer codec"
  },
  {
   "property": "C03",
   "status": "proved",
   "theorems": [
    "C03_hexint_types_roundtrip",
    "C03_bigint_text",
    "C03_int64_text",
    "C03_uint64_text",
    "C03_bigint_roundtrip",
    "C03_int_roundtrip",
    "C03_uint_roundtrip"
   ],
   "note": "Hexadecimal integer text is lossless"
  },
  {
   "property": "C04",
   "status": "proved",
   "theorems": [
    "C04_hexint_types_no_narrowing",
    "C04_int_in_range",
    "C04_uint_in_range",
    "C04_int_prefixed_text",
    "C04_uint_prefixed_text",
    "C04_int_decimal_text",
    "C04_uint_decimal_text",
    "C04_bare_digits_agree_refuted",
    "C04_leading_zero_monotone_refuted"
   ],
   "note": "The range and rejection claims are proved. The *_refuted theorems record that bare digits are read as decimal first, as hex only if decimal parsing fails, so unprefixed text has no uniform meaning."
  },
  {
   "property": "C05",
   "status": "proved",
   "theorems": [
    "C05_rawhex_roundtrip",
    "C05_hexbytes_roundtrip",
    "C05_rawhex_accepts",
    "C05_hexbytes_accepts",
    "C05_hexbytes_text_injective",
    "C05_client_hexbytes_roundtrip",
    "C05_client_hexbytes_accepts",
    "C05_client_hexbytes_total_refuted",
    "C05_hexpre"
   ],
   "note": "Round trips proved for all three hex byte types. Refuted: the client HexBytes.Value panics/errs on short or unprefixed text (C05_client_hexbytes_total_refuted)."
  },
  {
   "property": "C06",
   "status": "proved",
   "theorems": [
    "C06_text_roundtrip",
    "C06_binary_roundtrip",
    "C06_text_injective",
    "C06_text_form",
    "C06_setbytes_valid",
    "C06_setbytes_panics_iff",
    "C06_short_text",
    "C06_equal_iff",
    "C06_client_roundtrip",
    "C06_client_accepts",
    "C06_client_no_panic",
    "C06_client_no_panic_refuted",
    "C06_receiver_independent_refuted",
    "C06_long_text_rejected_refuted",
    "C06_from_public_key"
   ],
   "note": "Round trips and injectivity proved. Refuted theorems record panics of the client address type on short text, acceptance of over-long text, and dependence of SetString on the receiver's old contents."
  },
  {
   "property": "C07",
   "status": "proved",
   "theorems": [
    "C07_compose_decompose",
    "C07_compose_decompose_plain",
    "C07_compose_injective",
    "C07_validate_iff"
   ],
   "note": "BTP address decomposition inverts composition"
  },
  {
   "property": "C08",
   "status": "proved",
   "theorems": [
    "C08_written_is_rlp",
    "C08_read_write",
    "C08_kind_mismatch"
   ],
   "note": "RLP stream decoding inverts encoding"
  },
  {
   "property": "C09",
   "status": "proved",
   "theorems": [
    "C09_prefix_free",
    "C09_injective",
    "C09_sequences_injective",
    "C09_only_canonical_accepted_refuted"
   ],
   "note": "Injectivity and prefix-freeness proved. C09_only_canonical_accepted_refuted records that the reader also accepts non-canonical encodings."
  },
  {
   "property": "C10",
   "status": "proved",
   "theorems": [
    "C10_roundtrip",
    "C10_top_level_nil_pointer",
    "C10_marshal_injective",
    "C10_struct_missing_fields_are_zero",
    "C10_struct_extra_fields_ignored",
    "C10_array_missing_elements_are_zero",
    "C10_array_extra_elements_ignored",
    "C10_map_entries_any_order",
    "C10_pointer_to_slice_refuted",
    "C10_pointer_to_pointer_refuted",
    "C10_narrowing_detected_refuted"
   ],
   "note": "Proved for all types without pointers to nilable types; for *[]T and **T the round trip is refuted with witnesses. Types with custom encoders are outside the model."
  },
  {
   "property": "C11",
   "status": "proved",
   "theorems": [
    "C11_typed_nil_vs_empty",
    "C11_only_nil_is_nil",
    "C11_nil_marker_distinct",
    "C11_stream_nil_vs_empty"
   ],
   "note": "RLP distinguishes nil from empty"
  },
  {
   "property": "C12",
   "status": "proved",
   "theorems": [
    "C12_map_order_irrelevant",
    "C12_keys_increasing"
   ],
   "note": "Map encoding does not depend on iteration order"
  },
  {
   "property": "C13",
   "status": "proved",
   "theorems": [
    "C13_bytes_truncated",
    "C13_nil_truncated",
    "C13_scalars_truncated",
    "C13_list_truncation_refuted"
   ],
   "note": "Proved for byte strings, strings, integers and nil markers. For lists the claim is false: C13_list_truncation_refuted."
  },
  {
   "property": "C14",
   "status": "proved",
   "theorems": [
    "C14_skip_and_raw_one",
    "C14_skip_many",
    "C14_raw_redecodes",
    "C14_raw_splits_input",
    "C14_skip_huge_size_refuted"
   ],
   "note": "Proved for items with payload below 2^63; C14_skip_huge_size_refuted shows skip and raw read disagree on hostile size fields."
  },
  {
   "property": "C15",
   "status": "proved",
   "theorems": [
    "C15_root_is_merkle_root",
    "C15_merkle_root_unique",
    "C15_root_binds_contents",
    "C15_nil_content_rejected",
    "C15_get"
   ],
   "note": "For hash functions that never return an empty digest and fewer than 2^62 leaves. Uniqueness of the specified root and binding (equal roots and lengths give equal contents or a collision) are proved too."
  },
  {
   "property": "C16",
   "status": "proved",
   "theorems": [
    "C16_range_proof_verifies",
    "C16_bad_range_rejected"
   ],
   "note": "All ranges 1<=b<=e<=n of trees built by NewMerkleBinaryTree."
  },
  {
   "property": "C17",
   "status": "proved",
   "theorems": [
    "C17_accepted_contents_are_genuine",
    "C17_zero_sized_node_forgery_refuted",
    "C17_evaluation_total_refuted"
   ],
   "note": "Proved for proofs whose node sizes are at least 1, or a collision is exhibited. The code does not check the sizes; C17_zero_sized_node_forgery_refuted gives a forgery without collision, C17_evaluation_total_refuted a panic."
  },
  {
   "property": "C18",
   "status": "proved",
   "theorems": [
    "C18_path_verifies",
    "C18_path_cannot_lie",
    "C18_out_of_range"
   ],
   "note": "Completeness for every leaf and soundness along fixed directions (or a collision)."
  },
  {
   "property": "C19",
   "status": "partial",
   "theorems": [
    "C19_add_equals_build_partial",
    "C19_add_equals_build_refuted",
    "C19_grown_root_binds_contents"
   ],
   "note": "False in general: C19_add_equals_build_refuted (8 leaves). Equal for 1..7 leaves; for every number of leaves the grown root still binds the contents."
  },
  {
   "property": "C20",
   "status": "proved",
   "theorems": [
    "C20_binary_decomposition",
    "C20_any_history"
   ],
   "note": "For additions alone and for any history of additions, queries, verifications, complete or interrupted flushes and restarts (there: or a collision). Entry hashes are 32 bytes, fewer than 2^62 entries."
  },
  {
   "property": "C21",
   "status": "proved",
   "theorems": [
    "C21_every_witness_verifies",
    "C21_any_history",
    "C21_out_of_range",
    "C21_addition_witness",
    "C21_negative_index_refuted"
   ],
   "note": "Every index, before and after the query, any history. C21_negative_index_refuted: a negative index is answered with entry 0's witness."
  },
  {
   "property": "C22",
   "status": "proved",
   "theorems": [
    "C22_cut_witness_verifies_old",
    "C22_old_witness_verifies_new",
    "C22_new_witness_verifies_old_partial",
    "C22_new_witness_verifies_old_refuted"
   ],
   "note": "Both claims of the property are proved. The extra direction offered by the code (newer witness, older accumulator) is partial and refuted in general: C22_new_witness_verifies_old_refuted."
  },
  {
   "property": "C23",
   "status": "proved",
   "theorems": [
    "C23_accepted_is_genuine",
    "C23_any_history",
    "C23_accepted_with_length",
    "C23_overlong_hash_refuted"
   ],
   "note": "For 32 byte hashes, or a collision. C23_overlong_hash_refuted: the hash length is not checked."
  },
  {
   "property": "C24",
   "status": "proved",
   "theorems": [
    "C24_flush_then_recover",
    "C24_interrupted_flush",
    "C24_any_history",
    "C24_flush_completes"
   ],
   "note": "JSON encoding is a parameter with the round-trip hypothesis good_json (instantiated in the example). Writes succeed or fail atomically per key."
  },
  {
   "property": "C25",
   "status": "proved",
   "theorems": [
    "C25_witness_conversion",
    "C25_plain_witness_conversion"
   ],
   "note": "Every length and index below 2^62."
  },
  {
   "property": "C26",
   "status": "proved",
   "theorems": [
    "C26_shifted_accumulator",
    "C26_newer_height_is_clamped",
    "C26_offset_mismatch",
    "C26_flush_then_recover",
    "C26_verify_newer_refuted"
   ],
   "note": "Offsets in [0,2^62). C26_verify_newer_refuted: VerifyAt with a newer height clamps and rejects what the plain accumulator accepts."
  },
  {
   "property": "C27",
   "status": "proved",
   "theorems": [
    "C27_nodes_are_linked",
    "C27_returns_last_leaf",
    "C27_binding",
    "C27_leaf_inside_refuted",
    "C27_truncated_proof_panics_refuted",
    "C27_empty_path_panics_refuted"
   ],
   "note": "Linking, the returned value and binding are proved. Refuted: a leaf before the end is accepted and cuts the chain (C27_leaf_inside_refuted); truncated proofs and empty path items panic. The code does not check a key or a root."
  },
  {
   "property": "C28",
   "status": "proved",
   "theorems": [
    "C28_overlay",
    "C28_base_untouched",
    "C28_map_lawful",
    "C28_level_lawful",
    "C28_nil_refused",
    "C28_empty_key_flush_refuted",
    "C28_level_aliases_refuted"
   ],
   "note": "Proved for every lawful base: the map backend with non-empty keys, LevelDB with bucket ids of one length. Refuted: empty keys make a flush fail half way; overlapping LevelDB bucket ids leak through a flush."
  },
  {
   "property": "C29",
   "status": "proved",
   "theorems": [
    "C29_map_isolated",
    "C29_level_isolated",
    "C29_declared_buckets",
    "C29_prefix_ids_refuted"
   ],
   "note": "Isolation proved for the map backend and, for LevelDB/Badger keys, exactly when neither id is a prefix of the other. Refuted for prefix ids, in particular the declared empty MerkleTrie id."
  },
  {
   "property": "C30",
   "status": "proved",
   "theorems": [
    "C30_chain_exists",
    "C30_outermost_code",
    "C30_uncoded_is_unknown",
    "C30_wraps_keep_code",
    "C30_coding_sets_code",
    "C30_is_finds_chain",
    "C30_is_nil",
    "C30_nil_panics_refuted",
    "C30_equals"
   ],
   "note": "Proved for all chains of this package's errors and pkg/errors stacks. Refuted: asking a nil error or an uncoded wrap of nil for its code panics."
  },
  {
   "property": "C31",
   "status": "proved",
   "theorems": [
    "C31_map_error",
    "C31_icon_success_iff",
    "C31_icon_revert_code",
    "C31_icon_codes_are_genuine",
    "C31_uncoded_failure_silent_refuted",
    "C31_hostile_answer_panics_refuted",
    "C31_eth_success_iff",
    "C31_eth_negative_code_refuted",
    "C31_eth_revert_code",
    "C31_revert_error",
    "C31_family_names_refuted"
   ],
   "note": "ICON: success iff status 0x1, revert codes exact. EVM: success iff receipt status is not 0 or the revert text has a negative code (C31_eth_negative_code_refuted). Also refuted: uncoded failures are not reported to the link; hostile answers panic; family names at the boundaries."
  },
  {
   "property": "C32",
   "status": "proved",
   "theorems": [
    "C32_only_complete_messages",
    "C32_out_of_turn_refused",
    "C32_fragments_reassembled",
    "C32_message_stream",
    "C32_fragments_within_limit",
    "C32_completed_message_replays_refuted"
   ],
   "note": "Sender fragmentation against the fragment handler of the Java BMC: reassembly, order checks, streams of messages. Finding: the handler keeps the fragments after the last one, so a repeated last fragment would replay the message (C32_completed_message_replays_refuted)."
  },
  {
   "property": "C33",
   "status": "proved",
   "theorems": [
    "C33_order_irrelevant",
    "C33_excluded_irrelevant",
    "C33_signature_not_signed"
   ],
   "note": "At every depth, any include/exclude filter."
  },
  {
   "property": "C34",
   "status": "proved",
   "theorems": [
    "C34_text_determines_object",
    "C34_strict_objects",
    "C34_signed_bytes_determine_transaction",
    "C34_distinct_signed_alike_refuted"
   ],
   "note": "Exact characterization of collisions; C34_distinct_signed_alike_refuted gives two different transactions with the same signed bytes."
  },
  {
   "property": "C35",
   "status": "proved",
   "theorems": [
    "C35_consecutive",
    "C35_ranges",
    "C35_from_start",
    "C35_two_updates_refuted",
    "C35_over_limit_refuted",
    "C35_check_never_ends_refuted",
    "C35_check_does_not_advance_refuted",
    "C35_size_is_counted"
   ],
   "note": "Goroutines as interleaved steps of a state machine; the receiver is a parameter assumed honest. C35_*_refuted: two ready updates crash, over-limit crash or spin, non-terminating status check, repeated range."
  },
  {
   "property": "C36",
   "status": "proved",
   "theorems": [
    "C36_receive_status_cut",
    "C36_unacknowledged_kept",
    "C36_one_record_per_status_refuted",
    "C36_relay_message_cut",
    "C36_shared_status_refuted",
    "C36_already_verified_kept",
    "C36_unknown_id"
   ],
   "note": "Originally 'never discards': true for ordered records; C36_one_record_per_status_refuted and C36_shared_status_refuted state what is not."
  },
  {
   "property": "C37",
   "status": "proved",
   "theorems": [
    "C37_statuses_before_results",
    "C37_first_result_is_last_refuted",
    "C37_already_verified_cuts",
    "C37_old_witness_sends_again",
    "C37_old_witness_lost_refuted"
   ],
   "note": "Originally 'every result is processed', which is false: C37_first_result_is_last_refuted shows the self-deadlock on the first result."
  },
  {
   "property": "C38",
   "status": "proved",
   "theorems": [
    "C38_proof_contents",
    "C38_from_block_start",
    "C38_mid_block_refuted",
    "C38_early_proof_above_limit_refuted",
    "C38_no_proof",
    "C38_records_contiguous"
   ],
   "note": "Length of the encoded proof is a parameter. Originally 'covers exactly what it announces, within the limit': true at the start of a record only; C38_mid_block_refuted and C38_early_proof_above_limit_refuted are universal."
  },
  {
   "property": "C39",
   "status": "proved",
   "theorems": [
    "C39_events_kept",
    "C39_bridge_proof",
    "C39_bridge_single",
    "C39_bridge_skips_refuted",
    "C39_bridge_empty_block_refuted",
    "C39_eth_single",
    "C39_eth_small_limit_refuted",
    "C39_eth_batch_refuted"
   ],
   "note": "Originally for any number of messages, which is false; C39_bridge_skips_refuted, C39_bridge_empty_block_refuted and C39_eth_batch_refuted are universal."
  },
  {
   "property": "C40",
   "status": "proved",
   "theorems": [
    "C40_receipts",
    "C40_enumeration_irrelevant",
    "C40_in_order",
    "C40_bad_log_refuted"
   ],
   "note": "ABI unpacking and bloom filters are parameters; the map enumeration is any permutation."
  },
  {
   "property": "C41",
   "status": "proved",
   "theorems": [
    "C41_polling",
    "C41_polling_progress",
    "C41_subscription",
    "C41_gap_lost_refuted",
    "C41_below_requested_refuted"
   ],
   "note": "Node answers are parameters; C41_gap_lost_refuted and C41_below_requested_refuted state what the subscription does not guarantee."
  },
  {
   "property": "C42",
   "status": "proved",
   "theorems": [
    "C42_with_v",
    "C42_without_v",
    "C42_other_lengths",
    "C42_injective",
    "C42_parse_vrs_refuted",
    "C42_sign_recover",
    "C42_refused",
    "C42_compression"
   ],
   "note": "Curve operations are parameters. Originally the [V|R|S] parser was claimed lossless too; C42_parse_vrs_refuted shows it always crashes."
  },
  {
   "property": "C43",
   "status": "proved",
   "theorems": [
    "C43_roundtrip",
    "C43_accepted",
    "C43_wrong_password",
    "C43_tampered",
    "C43_bad_iv_refuted",
    "C43_evm_wallet_not_stored_refuted"
   ],
   "note": "scrypt, AES-CTR key stream, hashes and the curve are parameters; encoding/json's framing of the document is trusted. C43_bad_iv_refuted, C43_evm_wallet_not_stored_refuted."
  },
  {
   "property": "C44",
   "status": "proved",
   "theorems": [
    "C44_roundtrip",
    "C44_uncompressed_recipient_refuted",
    "C44_evm_not_secret_refuted",
    "C44_stream_reuse_refuted"
   ],
   "note": "Key agreement, HKDF and AES are parameters; symmetry of the agreement is a hypothesis shown satisfiable. C44_*_refuted: uncompressed recipient keys, EVM wallets, key stream reuse."
  },
  {
   "property": "C45",
   "status": "proved",
   "theorems": [
    "C45_settings",
    "C45_console",
    "C45_file_ignores_level_refuted",
    "C45_module_type_refuted",
    "C45_parse_level",
    "C45_hook_levels",
    "C45_package"
   ],
   "note": "logrus itself (its own level check before the formatter) is not modelled. Originally claimed for every output; C45_file_ignores_level_refuted."
  },
  {
   "property": "C46",
   "status": "proved",
   "theorems": [
    "C46_roundtrip",
    "C46_empty",
    "C46_comma_refuted",
    "C46_empty_key_refuted"
   ],
   "note": "Trimming of header values by net/http is not modelled; C46_comma_refuted and C46_empty_key_refuted show the side conditions are needed."
  },
  {
   "property": "C47",
   "status": "proved",
   "theorems": [
    "C47_base64_roundtrip",
    "C47_base64_injective",
    "C47_base64_length",
    "C47_fragment_fits"
   ],
   "note": "encoding/base64 URL encoding modelled byte by byte."
  },
  {
   "property": "C48",
   "status": "proved",
   "theorems": [
    "C48_accepted_messages_are_genuine",
    "C48_contract_agrees_with_relay",
    "C48_relay_proofs_accepted",
    "C48_negative_sizes_forgery_refuted"
   ],
   "note": "For proof nodes of positive size adding up to less than 2^31; C48_negative_sizes_forgery_refuted shows that the contract needs this restriction and does not make it. RLPn decoding of the proof is not part of the model."
  },
  {
   "property": "C49",
   "status": "proved",
   "theorems": [
    "C49_block_update_needs_quorum",
    "C49_two_thirds_refused",
    "C49_double_vote_refused",
    "C49_outsider_refused",
    "C49_quorum_accepted",
    "C49_validators_change",
    "C49_height_committed_refuted",
    "C49_long_network_path_refuted"
   ],
   "note": "Signature recovery and hash are parameters; RLPn writing is taken to be common/codec's. C49_height_committed_refuted, C49_long_network_path_refuted."
  },
  {
   "property": "C50",
   "status": "proved",
   "theorems": [
    "C50_delivered_is_prefix",
    "C50_genuine_update_accepted",
    "C50_genuine_proof_accepted",
    "C50_no_replay",
    "C50_only_bmc",
    "C50_sequence_offset_refuted",
    "C50_late_start_refuted",
    "C50_second_proof_same_message_refuted"
   ],
   "note": "Trust in more than two thirds of each validator set is the hypothesis that decisions with a quorum are decisions of genuine blocks. The conclusion allows a hash collision or a section encoding equal to two digests in a row. C50_*_refuted: sequence offset, late first block, second proof in one relay message."
  },
  {
   "property": "C51",
   "status": "proved",
   "theorems": [
    "C51_outcome",
    "C51_sent",
    "C51_hash_from_node",
    "C51_no_limit_refuted",
    "C51_duplicate_loses_hash_refuted",
    "C51_odd_answers_refuted",
    "C51_pool_sub_code_refuted",
    "C51_relay_order"
   ],
   "note": "Outcome and requests are characterised exactly. The refuted theorems record the lost hash of duplicates, the unlimited retry, the sub code 2001 that is not retried, and malformed answers."
  },
  {
   "property": "C52",
   "status": "proved",
   "theorems": [
    "C52_get",
    "C52_contains_key",
    "C52_enumeration"
   ],
   "note": "The contract's enumerable dictionary is a dictionary"
  },
  {
   "property": "C53",
   "status": "proved",
   "theorems": [
    "C53_sent_consecutively",
    "C53_new_link",
    "C53_started_consecutively",
    "C53_received",
    "C53_failure_undone"
   ],
   "note": "The message center is modelled as a whole (every external method but getters and fragments, which C32 covers); payloads are decoded, names and addresses are numbers. Numbers restart at 1 when a link is removed and added again."
  },
  {
   "property": "C54",
   "status": "proved",
   "theorems": [
    "C54_fate",
    "C54_one_event_each",
    "C54_received_by_service",
    "C54_routed",
    "C54_routed_if_possible",
    "C54_error_answer",
    "C54_unparsable_blocks_refuted",
    "C54_dropped_numbers"
   ],
   "note": "Services act by calls to sendMessage, with their failures caught or not; other re-entrant calls (a service that is also an owner or relay calling administration from its handler) are not modelled. C54_unparsable_blocks_refuted."
  },
  {
   "property": "C55",
   "status": "proved",
   "theorems": [
    "C55_own_faults",
    "C55_no_service",
    "C55_service_faults",
    "C55_other_faults",
    "C55_service_code_misreported_refuted",
    "C55_type_of_code_refuted"
   ],
   "note": "Originally claimed for every revert code; C55_service_code_misreported_refuted and C55_type_of_code_refuted."
  },
  {
   "property": "C56",
   "status": "proved",
   "theorems": [
    "C56_answered_at_most_once",
    "C56_reply",
    "C56_kept_for_reply",
    "C56_no_fee_record_refuted"
   ],
   "note": "C56_no_fee_record_refuted: a request without a fee record cannot be answered."
  },
  {
   "property": "C57",
   "status": "proved",
   "theorems": [
    "C57_conservation",
    "C57_sends_genuine",
    "C57_collected_twice_refuted",
    "C57_dropped_fees_lost_refuted",
    "C57_claim_credited_twice_refuted",
    "C57_message_costs"
   ],
   "note": "Originally claimed as exact conservation; the exceptions are C57_collected_twice_refuted, C57_dropped_fees_lost_refuted, C57_claim_credited_twice_refuted. Hypotheses: incoming messages are genuine (which C57_sends_genuine shows is kept by a network of such contracts), amounts are not negative, owners do not drop one-way messages with more than one fee, nobody attaches coins to a local claim."
  },
  {
   "property": "C58",
   "status": "proved",
   "theorems": [
    "C58_only_owners_administer",
    "C58_owners_needed",
    "C58_in_order",
    "C58_removed_exactly",
    "C58_owner_removed_exactly",
    "C58_rewards_only_claimed",
    "C58_claim_pays",
    "C58_only_the_service_sends",
    "C58_only_own_services_called",
    "C58_removed_link_keeps_relays_refuted",
    "C58_any_network_settles_refuted",
    "C58_own_messages_not_droppable_refuted",
    "C58_old_network_id_kept_refuted"
   ],
   "note": "Findings: C58_removed_link_keeps_relays_refuted, C58_any_network_settles_refuted, C58_own_messages_not_droppable_refuted, C58_old_network_id_kept_refuted."
  },
  {
   "property": "C59",
   "status": "proved",
   "theorems": [
    "C59_relay_writes_format",
    "C59_relay_message_read",
    "C59_no_confusion",
    "C59_other_items_refused",
    "C59_unknown_types_refused",
    "C59_relay_reads_height",
    "C59_relay_reads_shared_type_refuted",
    "C59_block_and_messages_end_to_end",
    "C59_more_messages_end_to_end"
   ],
   "note": "The Java \"RLPn\" reader is library code, taken as described at the head of M_Wire.v (nil marker accepted where a list begins). Originally also claimed that the relay reads every header; C59_relay_reads_shared_type_refuted."
  },
  {
   "property": "C60",
   "status": "proved",
   "theorems": [
    "C60_item_read",
    "C60_bytes_become_item",
    "C60_writers_agree",
    "C60_byte_0x80_refuted",
    "C60_uint_written",
    "C60_int_written",
    "C60_int_minus_128_refuted",
    "C60_numbers_read",
    "C60_roundtrip",
    "C60_negative_as_unsigned",
    "C60_reads_within_bounds_refuted"
   ],
   "note": "Gas is not modelled; word-wise memory copies stand as byte copies. Originally claimed for every tree and number; C60_byte_0x80_refuted, C60_int_minus_128_refuted, C60_reads_within_bounds_refuted give the exceptions."
  },
  {
   "property": "C61",
   "status": "proved",
   "theorems": [
    "C61_solidity_accepts_exactly",
    "C61_network_of_same_addresses",
    "C61_java_accepts_exactly",
    "C61_java_roundtrip",
    "C61_java_equals",
    "C61_three_parsers_agree",
    "C61_other_protocols_refuted",
    "C61_account_with_slash_refuted",
    "C61_account_accepts_exactly",
    "C61_account_roundtrip",
    "C61_checksum_case"
   ],
   "note": "Originally claimed that all three parsers accept the same texts; C61_other_protocols_refuted and C61_account_with_slash_refuted give the differences."
  },
  {
   "property": "C62",
   "status": "proved",
   "theorems": [
    "C62_java_handles_exactly",
    "C62_solidity_handles_exactly",
    "C62_consecutive",
    "C62_gap_refused",
    "C62_run_delivered",
    "C62_height_grows",
    "C62_old_receipts_ignored",
    "C62_java_resend",
    "C62_solidity_resend",
    "C62_solidity_only_mine",
    "C62_java_one_message",
    "C62_java_several_messages_refuted",
    "C62_java_any_receiver"
   ],
   "note": "Originally claimed that both contracts return the messages handed over; C62_java_several_messages_refuted: the Java contract fills only the first element of the array. Events for other receivers with the expected number are skipped by the Solidity contract without raising the number, so that a later event must carry the same number."
  },
  {
   "property": "C63",
   "status": "proved",
   "theorems": [
    "C63_icon_to_java",
    "C63_icon_to_solidity",
    "C63_eth_to_solidity",
    "C63_eth_to_java_refuted",
    "C63_when_misread",
    "C63_eth_link_stops_refuted",
    "C63_icon_to_solidity_end_to_end",
    "C63_first_proof_only_refuted"
   ],
   "note": "Originally claimed for all four pairs of writer and reader; C63_eth_to_java_refuted, C63_eth_link_stops_refuted, C63_first_proof_only_refuted give the exceptions. go-ethereum's rlp encoder is library code, taken as writing an unsigned big.Int without leading zeros."
  },
  {
   "property": "C64",
   "status": "proved",
   "theorems": [
    "C64_messages_genuine",
    "C64_relay_proofs_accepted",
    "C64_zero_sized_node_refuted",
    "C64_ring_is_queue",
    "C64_level_smallest"
   ],
   "note": "Originally claimed without the exception for messages made of two digests; C64_zero_sized_node_refuted delivers a message never sent. Array lengths are taken to be far below 2^256; gas is not modelled."
  },
  {
   "property": "C65",
   "status": "proved",
   "theorems": [
    "C65_update_needs_quorum",
    "C65_header_is_signed",
    "C65_votes_counted",
    "C65_genuine_update_accepted",
    "C65_missing_signature_refuted",
    "C65_validators_not_committed_refuted"
   ],
   "note": "Originally claimed that a quorum of signatures suffices and that new validators are the signed ones; C65_missing_signature_refuted and C65_validators_not_committed_refuted. ecrecover is a parameter; the zero address it returns on failure is not rejected by the code, so that a validator list with address zero is satisfied by any bytes."
  },
  {
   "property": "C66",
   "status": "proved",
   "theorems": [
    "C66_only_in_turn",
    "C66_address_split",
    "C66_delivered_from_right_block",
    "C66_in_order_if_proofs_are",
    "C66_proof_again_refuted",
    "C66_unknown_items_ignored",
    "C66_relay_bytes_read",
    "C66_relay_messages_committed",
    "C66_block_and_messages_end_to_end"
   ],
   "note": "Originally claimed that every message is handed over once and in order; C66_proof_again_refuted and C66_ex_twice: a proof is accepted again while the block counts as unfinished, another message is lost. The hypothesis that new validators are the signed ones is needed because of C65_validators_not_committed_refuted."
  },
  {
   "property": "C67",
   "status": "proved",
   "theorems": [
    "C67_java_calls_followed",
    "C67_solidity_calls_followed",
    "C67_java_rollbacks",
    "C67_solidity_rollbacks",
    "C67_numbers_from_one",
    "C67_rollback_cancelled_refuted",
    "C67_response_from_anywhere_refuted",
    "C67_empty_rollback_refuted"
   ],
   "note": "Originally claimed that an announced rollback stays executable and that only the network called can answer; C67_rollback_cancelled_refuted and C67_response_from_anywhere_refuted. C67_empty_rollback_refuted: empty rollback data counts in Java only. Transactions are assumed as tx_ok says: senders are not the zero address, networks have no slash, error numbers fit 256 bits. sn >= 2^128-1 cannot occur in Solidity (the writer reverts)."
  },
  {
   "property": "C68",
   "status": "proved",
   "theorems": [
    "C68_java_calls_followed",
    "C68_solidity_calls_followed",
    "C68_java_calls",
    "C68_solidity_calls",
    "C68_calls_not_as_rollbacks",
    "C68_empty_sender_stuck_refuted",
    "C68_big_number_stuck_refuted"
   ],
   "note": "Originally claimed that every request can be executed and is answered; C68_empty_sender_stuck_refuted and C68_big_number_stuck_refuted. If a called Java contract ends in another way than by a revert, executeCall fails as a whole and the request stays."
  },
  {
   "property": "C69",
   "status": "proved",
   "theorems": [
    "C69_java_coins",
    "C69_solidity_coins",
    "C69_balance",
    "C69_excess_to_bmc_refuted"
   ],
   "note": "Plain transfers of coins to the contract outside the service's methods are not modelled (Java's contract has no fallback; Solidity's has no receive function)."
  },
  {
   "property": "C70",
   "status": "proved",
   "theorems": [
    "C70_java_writes",
    "C70_java_reads",
    "C70_solidity_reads",
    "C70_solidity_messages_read",
    "C70_solidity_writes",
    "C70_leading_zero_refuted",
    "C70_byte_0x80_refuted",
    "C70_big_numbers_revert",
    "C70_java_to_solidity_and_back",
    "C70_solidity_to_java_and_back"
   ],
   "note": "Originally claimed equal bytes and unchanged data without exception; C70_leading_zero_refuted, C70_byte_0x80_refuted. The Java platform's reader is modelled as in C59 and is taken to accept lengths with leading zeros, as the Go codec does; its readBoolean is taken to accept the single bytes 0 and 1."
  },
  {
   "property": "C71",
   "status": "proved",
   "theorems": [
    "C71_only_bmc_delivers",
    "C71_settings",
    "C71_rollbacks_for_contracts",
    "C71_long_error_code_refuted"
   ],
   "note": "C71_long_error_code_refuted: Integers.toString has room for 32 digits. In Solidity the service name is compared by its hash."
  },
  {
   "property": "C72",
   "status": "proved",
   "theorems": [
    "C72_relative",
    "C72_absolute",
    "C72_there_and_back",
    "C72_relative_file_refuted",
    "C72_socket",
    "C72_saved_loaded",
    "C72_same_name_refuted",
    "C72_save_keeps",
    "C72_save_moves_refuted",
    "C72_save_option_moves_refuted",
    "C72_save_log_refuted"
   ],
   "note": "Original wording: saving keeps where all paths lead, and a name saved to can be loaded from. Refuted by C72_save_moves_refuted, C72_save_option_moves_refuted, C72_save_log_refuted, C72_same_name_refuted; C72_relative_file_refuted: with a relative file path the result is not absolute. path/filepath is modelled by its documented behaviour; symbolic links are left aside."
  },
  {
   "property": "C73",
   "status": "proved",
   "theorems": [
    "C73_links",
    "C73_nothing_else",
    "C73_sender_options_refuted",
    "C73_returns_failures",
    "C73_waiting_loses_nothing",
    "C73_early_error_lost_refuted",
    "C73_receiver_error_lost_refuted"
   ],
   "note": "Original wording: every error that ends a link ends the program. Refuted by C73_early_error_lost_refuted and C73_receiver_error_lost_refuted; C73_sender_options_refuted: options are given to the wrong side. Loggers and the base directory are left out."
  },
  {
   "property": "C74",
   "status": "proved",
   "theorems": [
    "C74_saved_keys_open",
    "C74_wrong_password_stops",
    "C74_unreadable_secret_refuted",
    "C74_no_key_store_file_refuted"
   ],
   "note": "Original wording: an unreadable secret file stops the command. Refuted for the source by C74_unreadable_secret_refuted. C74_no_key_store_file_refuted: the option names asked for are not defined. Key store encryption is a parameter; C43 shows the assumption for the model of common/wallet."
  },
  {
   "property": "C75",
   "status": "proved",
   "theorems": [
    "C75_writes_format",
    "C75_shortest",
    "C75_reads_format",
    "C75_roundtrip",
    "C75_top_level_nil",
    "C75_prefix_free",
    "C75_injective",
    "C75_only_nil_is_nil",
    "C75_extra_fields_ignored",
    "C75_missing_fields_are_zero",
    "C75_array_extra_and_missing",
    "C75_map_order_irrelevant",
    "C75_map_entries_any_order",
    "C75_any_input",
    "C75_cut_off",
    "C75_narrowing_detected_refuted",
    "C75_four_gigabytes_refuted",
    "C75_kinds_told_apart_refuted",
    "C75_extension_refuted"
   ],
   "note": "C75_narrowing_detected_refuted, C75_four_gigabytes_refuted, C75_kinds_told_apart_refuted, C75_extension_refuted. github.com/vmihailenco/msgpack is modelled by the format and its documented choices; ReadRaw and WriteRaw are left out. codec.MP has no user in the repository."
  },
  {
   "property": "C76",
   "status": "proved",
   "theorems": [
    "C76_sent_consecutively",
    "C76_sent_from_one",
    "C76_removed_link_starts_again",
    "C76_started_consecutively",
    "C76_received",
    "C76_new_link"
   ],
   "note": "Counters are taken not to overflow 256 bits; gas is not modelled. Services may call sendMessage while they are called, nothing else."
  },
  {
   "property": "C77",
   "status": "proved",
   "theorems": [
    "C77_fate",
    "C77_one_event_each",
    "C77_outcome",
    "C77_not_blocked",
    "C77_unreadable_message_blocks_refuted",
    "C77_unnumbered_request_blocks_refuted",
    "C77_service_without_code_blocks_refuted",
    "C77_large_number_blocks_refuted"
   ],
   "note": "C77_unreadable_message_blocks_refuted, C77_unnumbered_request_blocks_refuted, C77_service_without_code_blocks_refuted, C77_large_number_blocks_refuted: what stops a link until an owner drops the message. C77_not_blocked asks that rewards leave room below 2^256."
  },
  {
   "property": "C78",
   "status": "proved",
   "theorems": [
    "C78_answered_at_most_once",
    "C78_not_forgotten",
    "C78_reply"
   ],
   "note": "Counted per network and serial number as the messages carry them; a source that numbers two requests alike gets as many answers as requests."
  },
  {
   "property": "C79",
   "status": "proved",
   "theorems": [
    "C79_never_owes_more",
    "C79_nothing_lost",
    "C79_pays_what_it_got",
    "C79_coins_stuck_refuted"
   ],
   "note": "Hypotheses: memory and delivered bytes hold bytes, amounts in calls and in the calls services make are unsigned. C79_coins_stuck_refuted: coins of deposits and coins sent along with a claim of own coins are owed to nobody."
  },
  {
   "property": "C80",
   "status": "proved",
   "theorems": [
    "C80_who_routes",
    "C80_tables_agree",
    "C80_routes_lead",
    "C80_resolves",
    "C80_link_removable",
    "C80_first_announcer",
    "C80_neighbour_unroutes_refuted",
    "C80_new_link_used_refuted",
    "C80_links_once_refuted",
    "C80_owner_route_kept_refuted",
    "C80_route_taken_back_refuted",
    "C80_announced_by_its_link_refuted",
    "C80_next_is_link_refuted",
    "C80_can_remove_refuted",
    "C80_removal_keeps_others_refuted"
   ],
   "note": "The condition under which routes lead somewhere is spelled out as orderly (S_SBmc2.v). Nine _refuted theorems show that the conditions are needed: among others C80_neighbour_unroutes_refuted (a neighbour's Unlink deletes the route of a direct link), C80_new_link_used_refuted and C80_links_once_refuted (a link to an already announced network is not used and can be added twice), C80_announced_by_its_link_refuted (announcements in another network's name), C80_can_remove_refuted (a link that can no longer be removed)."
  },
  {
   "property": "C81",
   "status": "proved",
   "theorems": [
    "C81_always_an_owner",
    "C81_only_owners",
    "C81_callers",
    "C81_latest_decision",
    "C81_rewards_kept",
    "C81_claimed_once",
    "C81_asked_network_settles_refuted",
    "C81_reward_back_once_refused_refuted",
    "C81_own_name_reserved_refuted",
    "C81_handler_keeps_reward_refuted"
   ],
   "note": "C81_asked_network_settles_refuted, C81_reward_back_once_refused_refuted: handleResponse does not look where the answer comes from. C81_own_name_reserved_refuted: addService accepts the name bmc (a TODO in the code). C81_handler_keeps_reward_refuted: a fee handler claims for the message center only."
  },
  {
   "property": "C82",
   "status": "proved",
   "theorems": [
    "C82_java_writes",
    "C82_java_reads",
    "C82_java_to_java",
    "C82_solidity_reads",
    "C82_solidity_writes",
    "C82_same_bytes",
    "C82_solidity_writes_inner",
    "C82_solidity_messages_read",
    "C82_java_messages_read",
    "C82_number_128_refuted",
    "C82_unreadable_stops_link_refuted",
    "C82_reply_to_128_refuted",
    "C82_byte_0x80_refuted",
    "C82_wide_numbers_not_forwarded",
    "C82_long_code_refuted",
    "C82_leading_zero_refuted"
   ],
   "note": "Original wording: both sides read whatever either writes. C82_number_128_refuted, C82_reply_to_128_refuted, C82_unreadable_stops_link_refuted: -128 is written as the empty string and blocks the link. C82_byte_0x80_refuted: the payload 0x80 arrives empty. C82_leading_zero_refuted: not the same bytes at 255. C82_wide_numbers_not_forwarded, C82_long_code_refuted: numbers one side accepts and the other does not."
  },
  {
   "property": "C83",
   "status": "proved",
   "theorems": [
    "C83_roots_decompose",
    "C83_same_roots_as_go",
    "C83_go_witness_accepted",
    "C83_newer_go_witness_accepted",
    "C83_accepted_is_an_entry",
    "C83_accepted_at_its_height",
    "C83_newer_is_the_entry",
    "C83_older_is_cached",
    "C83_only_for_current_height",
    "C83_height_checked_refuted",
    "C83_limited_go_witness_refuted",
    "C83_ensureRoots_ends_refuted",
    "C83_ensureRoots_keeps_refuted",
    "C83_ensureCache_keeps_newest_refuted",
    "C83_fresh"
   ],
   "note": "C83_height_checked_refuted: with an odd number of entries the last hash is accepted for every height. C83_limited_go_witness_refuted: pruned roots and unpruned witnesses do not fit. C83_ensureRoots_ends_refuted, C83_ensureRoots_keeps_refuted, C83_ensureCache_keeps_newest_refuted: changing the sizes later (these methods have no caller in the repository)."
  },
  {
   "property": "C84",
   "status": "proved",
   "theorems": [
    "C84_proof_accepted",
    "C84_accepted_in_tree",
    "C84_index_exact",
    "C84_index_keys_differ",
    "C84_one_value",
    "C84_binding",
    "C84_contained_unprovable",
    "C84_reading_total",
    "C84_reads_written",
    "C84_only_keys_of_tree_refuted",
    "C84_failures_reported_refuted"
   ],
   "note": "C84_only_keys_of_tree_refuted: a leaf is accepted for every prefix of its key (harmless for encoded indexes, C84_index_exact). C84_contained_unprovable: nodes contained in their parent have no hash and end in a NullPointerException. C84_failures_reported_refuted: short proofs, missing keys and empty headers end in exceptions other than MPTException, which proveReceiptProof does not translate."
  },
  {
   "property": "C85",
   "status": "proved",
   "theorems": [
    "C85_updates_exact",
    "C85_quorums_share_voters",
    "C85_no_fork",
    "C85_history",
    "C85_verifiers_agree",
    "C85_access",
    "C85_proof_changes_nothing",
    "C85_proof_height",
    "C85_messages",
    "C85_events_exact",
    "C85_messages_lost_refuted",
    "C85_deployment"
   ],
   "note": "C85_messages_lost_refuted: handleRelayMessage fills the array to be returned with ret[i] = msg without increasing i, so a relay message with two or more messages returns the last one and nulls, which the message center cannot decode. Heights are unbounded integers in the model. The status of a receipt is not looked at by the contract. C85_messages assumes that the receipts hash of the block and the logs hashes of its receipts are roots of trees keyed by encoded indexes (C84)."
  },
  {
   "property": "C86",
   "status": "proved",
   "theorems": [
    "C86_relay_read_back",
    "C86_header_read_back",
    "C86_receipt_read_back",
    "C86_event_read_back",
    "C86_validators_read_back",
    "C86_headers_apart",
    "C86_votes_apart",
    "C86_longer_result_refuted",
    "C86_null_extension_refuted",
    "C86_state_survives",
    "C86_accumulator_storable",
    "C86_state_kept",
    "C86_always_read_back"
   ],
   "note": "C86_longer_result_refuted: a result with a fifth element is read and its header hashed without it. C86_null_extension_refuted: a null fourth element is an exception. The platform's reader and writer are those of M_Wire. Calls of C86_state_kept are with messages of bytes, and the accumulator has no root limit, as after every deployment."
  },
  {
   "property": "C87",
   "status": "proved",
   "theorems": [
    "C87_in_order",
    "C87_authentic",
    "C87_delivered_once",
    "C87_answered_once",
    "C87_link_added_again_refuted",
    "C87_wrong_drop_refuted"
   ],
   "note": "Verifiers are assumed to answer only with messages put out for this center, in order from the number asked for: C50, C62, C66 and C85 are about when the modelled ones do. C87_link_added_again_refuted, C87_wrong_drop_refuted: what happens without the other two conditions. At most one, not exactly one: messages may be dropped (C54, C56)."
  },
  {
   "property": "C88",
   "status": "proved",
   "theorems": [
    "C88_books",
    "C88_tokens_kept",
    "C88_transfers",
    "C88_charged",
    "C88_answered",
    "C88_reclaimed",
    "C88_who",
    "C88_native_kept_refuted",
    "C88_request_in_full_refuted",
    "C88_asked_network_answers_refuted"
   ],
   "note": "Of the token contract the balances and supplies are modelled; approval and ownership are behaviours of each call. Receivers do not call back during a call. Token ids (hashes of names) are assumed distinct. That fees never shrink is part of C88_who: there is no way to take them out. C89 joins several services."
  },
  {
   "property": "C89",
   "status": "proved",
   "theorems": [
    "C89_conserved",
    "C89_under_way",
    "C89_both_or_neither",
    "C89_refunds_covered",
    "C89_goes_through",
    "C89_settled",
    "C89_answer_turned_back_refuted",
    "C89_named_twice_refuted"
   ],
   "note": "The message centers are represented by what C87 proves of them (at most once, unchanged) plus the freedom to turn any request back; that an answer may be turned back as an error to the one who gave it (dropMessage, an asker whose handler reverts) is an operation of the model excluded in the positive theorems and used in C89_answer_turned_back_refuted. Reading the code: the answer goes out under the sender's number as a new two-way message, so its error arrives with that number."
  },
  {
   "property": "C90",
   "status": "proved",
   "theorems": [
    "C90_writes",
    "C90_reads",
    "C90_stored",
    "C90_arrives",
    "C90_one_form_refuted"
   ],
   "note": "The platform's RLPn reader and writer are those of M_Wire (see C59). The link to C88: body_in gives the message M_Ncs handles."
  },
  {
   "property": "C91",
   "status": "proved",
   "theorems": [
    "C91_accounts",
    "C91_covered",
    "C91_signs",
    "C91_transfers",
    "C91_charged",
    "C91_answered",
    "C91_paid",
    "C91_gathered",
    "C91_who",
    "C91_undone",
    "C91_owners",
    "C91_anybody_writes_refuted",
    "C91_negative_refuted",
    "C91_error_keeps_fee_refuted",
    "C91_error_refused_refuted",
    "C91_fees_lost_refuted",
    "C91_owner_count_refuted",
    "C91_second_asset_refuted",
    "C91_share_refuted",
    "C91_unknown_ignored_refuted"
   ],
   "note": "One token service with IRC2Basic tokens. setBalance is external and unchecked (C91_anybody_writes_refuted), so no_hand excludes it. Receivers do not call back into the service. Contract owner and message center are fixed."
  },
  {
   "property": "C92",
   "status": "proved",
   "theorems": [
    "C92_writes",
    "C92_reads",
    "C92_stored",
    "C92_arrives",
    "C92_address",
    "C92_address_refuted"
   ],
   "note": "The platform's RLPn reader and writer are those of M_Wire (see C59). tbody_in gives the message M_Tbsh handles."
  },
  {
   "property": "C93",
   "status": "proved",
   "theorems": [
    "C93_books",
    "C93_syndications",
    "C93_shares",
    "C93_covered",
    "C93_claim",
    "C93_who",
    "C93_zero_deposits_refuted",
    "C93_refunds_refuted",
    "C93_withdrawal_refuted",
    "C93_stuck_refuted",
    "C93_duration_refuted",
    "C93_twice_refuted"
   ],
   "note": "Token contracts are the amounts this contract holds; nobody called calls back. fair asks for deposits above 0 and prices not below 0; distinct for different tokens under different names; the refutations show what happens otherwise."
  },
  {
   "property": "C94",
   "status": "proved",
   "theorems": [
    "C94_uninterrupted",
    "C94_in_bounds",
    "C94_what_goes",
    "C94_nothing_lost",
    "C94_lost_refuted",
    "C94_unproved_refuted",
    "C94_block_skipped_refuted",
    "C94_updates"
   ],
   "note": "Reads and writes of a slice are taken to be indivisible and ordered, which is more than Go promises for racing accesses. The records are any type with a height and a number."
  },
  {
   "property": "C95",
   "status": "proved",
   "theorems": [
    "C95_delivers",
    "C95_two_blocks_refuted",
    "C95_not_resent_refuted",
    "C95_inside_a_block_refuted",
    "C95_failed_fetch_refuted",
    "C95_nil_status_refuted",
    "C95_from_zero_refuted"
   ],
   "note": "The goroutines are events (fetch, take, build, status) that each run to their end; C94 looks inside them. The node answers headers, messages and proofs of the blocks the chain signed. Blocks whose messages do not fit into one relay message are outside this theorem; C35 to C37 say what the link does with those."
  },
  {
   "property": "C96",
   "status": "proved",
   "theorems": [
    "C96_icon_last_message_only",
    "C96_icon_to_solidity",
    "C96_icon_to_java",
    "C96_unharmed_all",
    "C96_icon_crowded_block_refuted",
    "C96_icon_empty_block_refuted",
    "C96_icon_two_blocks_refuted",
    "C96_icon_restart_refuted",
    "C96_eth_to_solidity",
    "C96_eth_to_java_refuted",
    "C96_eth_two_messages_refuted",
    "C96_eth_bad_log_refuted",
    "C96_icon_proof",
    "C96_icon_bad_message",
    "C96_icon_messages"
   ],
   "note": "The fetch of a block, its reception by the link and its handling are separate events; a handler of the link runs to its end. Relay results are left out, as the trust-based sender reports none that change what is sent in these runs (M_Link.v models them). The full statement (all messages arrive for every chain) is refuted by six theorems."
  },
  {
   "property": "C97",
   "status": "proved",
   "theorems": [
    "C97_written_is_rlp",
    "C97_reads",
    "C97_read_back",
    "C97_cut_refused",
    "C97_tail_refused",
    "C97_parts_lie_inside",
    "C97_long_payload_refuted",
    "C97_one_encoding_refuted",
    "C97_nested_dict_refuted",
    "C97_absent_object_refuted",
    "C97_base64_written",
    "C97_base64_read",
    "C97_base64_read_back",
    "C97_base64_unpadded",
    "C97_one_text_refuted",
    "C97_base64_only"
   ],
   "note": "Text is its UTF-8 bytes and which bytes are UTF-8 is a parameter; exceptions are one value. Sizes stay below 2^53 for the divisions in floating point. That dicts used as types are emptied by reading is part of the model (the type object afterwards is returned). The full statement (for payloads of any size, one encoding per value, nested types) is refuted by five theorems."
  },
  {
   "property": "C98",
   "status": "proved",
   "theorems": [
    "C98_same_as_java",
    "C98_roots_decompose",
    "C98_accepted_is_an_entry",
    "C98_accepted_at_its_height",
    "C98_newer_shows",
    "C98_newer_witness_refuted",
    "C98_newer_root_refuted",
    "C98_older_is_cached",
    "C98_only_for_current_height",
    "C98_height_checked_refuted",
    "C98_go_witness_accepted",
    "C98_stored",
    "C98_large_store_refuted",
    "C98_smaller_cache",
    "C98_roots_size_refuted"
   ],
   "note": "Indices stay below 2^53 (int(idx/2) is a division in floating point). Stored bytes with a nil marker in a field of numbers are refused when read here, not when used. The full statement for witnesses of later heights, smaller numbers of roots, heights beside witnesses and stores of 65536 bytes is refuted by five theorems."
  },
  {
   "property": "C99",
   "status": "proved",
   "theorems": [
    "C99_proof_accepted",
    "C99_accepted_in_tree",
    "C99_keys",
    "C99_index_exact",
    "C99_index_accepted",
    "C99_same_as_java",
    "C99_binding",
    "C99_needs_hash_and_proof",
    "C99_reading_total",
    "C99_contained_in_extension",
    "C99_branch_value_refuted",
    "C99_only_keys_of_tree_refuted",
    "C99_nil_value_refuted"
   ],
   "note": "Exceptions are one value. The full statement for values of branches, keys that are prefixes of keys, and leaves with the nil marker is refuted by three theorems; values behind an extension that contains its child cannot be proved (C99_contained_in_extension)."
  },
  {
   "property": "C100",
   "status": "proved",
   "theorems": [
    "C100_dict_as_marked",
    "C100_dict",
    "C100_comma_raises",
    "C100_removed_again_refuted",
    "C100_short_key_lost_refuted",
    "C100_remove_all_refuted",
    "C100_props",
    "C100_bool_refuted",
    "C100_props_removed",
    "C100_unset_comes_back_refuted",
    "C100_props_checked"
   ],
   "note": "The dictionary is modelled without with_flush, which no contract sets. Values of nested dictionaries are objects named by their key; what they store is another part of the store. The full statement (a dictionary, whatever is done) is refuted by C100_removed_again_refuted, C100_short_key_lost_refuted and C100_remove_all_refuted; C100_dict_as_marked says exactly what the dictionary does instead. Unsetting is refuted for the next call by C100_unset_comes_back_refuted."
  },
  {
   "property": "C101",
   "status": "proved",
   "theorems": [
    "C101_updates_exact",
    "C101_quorums_share_voters",
    "C101_votes_as_java",
    "C101_repeated_validators_refuted",
    "C101_absent_validators_refuted",
    "C101_history",
    "C101_verifiers_agree",
    "C101_access",
    "C101_proof_changes_nothing",
    "C101_proof_height",
    "C101_messages",
    "C101_events_exact",
    "C101_other_center_refuted",
    "C101_event_read",
    "C101_no_parameters_refuted",
    "C101_logs_in_receipt_refuted",
    "C101_honest_accepted",
    "C101_installed",
    "C101_parameters",
    "C101_leading_dot"
   ],
   "note": "Signature recovery, the address functions of the platform and the test for UTF-8 are parameters. The state is a record (C98_stored, C100_props say that it is read back as written). The tree theorem asks for trees keyed by index with 32-byte hashes, as C99 does, and for keys of proofs below 2^63 bytes. 'Messages for other centers are passed over' is refuted by C101_other_center_refuted; C101_repeated_validators_refuted, C101_absent_validators_refuted, C101_no_parameters_refuted and C101_logs_in_receipt_refuted are the other differences."
  },
  {
   "property": "C102",
   "status": "proved",
   "theorems": [
    "C102_address_text",
    "C102_message_bytes",
    "C102_next_hop",
    "C102_one_hop",
    "C102_send",
    "C102_numbers",
    "C102_links",
    "C102_relayed",
    "C102_answers",
    "C102_stuck_refuted",
    "C102_poison_refuted",
    "C102_answered_error_refuted",
    "C102_service_stops_refuted",
    "C102_lost_refuted",
    "C102_route_nowhere_refuted",
    "C102_plain_route_refuted",
    "C102_told_text_refuted",
    "C102_unlinked",
    "C102_two_links_refuted",
    "C102_told_for_another_refuted",
    "C102_wrong_center_refuted"
   ],
   "note": "What the verifier answers, which relay may call and what the services do are parameters; services may send messages while they are called. The dictionaries are lists in the order of keys (C100 says when). 'Every message is delivered or answered' is refuted by C102_stuck_refuted, C102_poison_refuted, C102_lost_refuted, C102_service_stops_refuted and C102_route_nowhere_refuted; the other refutations are C102_wrong_center_refuted, C102_answered_error_refuted, C102_plain_route_refuted, C102_told_text_refuted, C102_told_for_another_refuted and C102_two_links_refuted. C102_answers asks for services that send nothing and for texts that are addresses."
  },
  {
   "property": "C103",
   "status": "proved",
   "theorems": [
    "C103_ceil",
    "C103_term",
    "C103_terms",
    "C103_term_refuted",
    "C103_turn",
    "C103_only_height",
    "C103_fair",
    "C103_heights",
    "C103_choice_refuted",
    "C103_registered",
    "C103_history",
    "C103_someone",
    "C103_no_relays_refuted",
    "C103_remove_refuted",
    "C103_stays_refuted",
    "C103_anyone_refuted",
    "C103_no_cancel_refuted",
    "C103_no_withdraw_refuted",
    "C103_next",
    "C103_rounding"
   ],
   "note": "Floats are binary64 numbers without overflow and denormals. The messages and the height reported by the verifier are parameters. 'One relay per height' holds without messages and is refuted with them (C103_choice_refuted); the exact term by C103_term_refuted; further refutations: C103_no_relays_refuted, C103_remove_refuted, C103_stays_refuted, C103_anyone_refuted, C103_no_cancel_refuted, C103_no_withdraw_refuted."
  },
  {
   "property": "C104",
   "status": "proved",
   "theorems": [
    "C104_gate",
    "C104_tidy",
    "C104_add",
    "C104_add_goes",
    "C104_remove",
    "C104_twice_refuted",
    "C104_only_granted",
    "C104_only_revoked",
    "C104_owner",
    "C104_locked_refuted",
    "C104_ungrantable_refuted",
    "C104_dead_refuted",
    "C104_service_again_refuted"
   ],
   "note": "Dictionaries are lists in the order of their keys (C100 says when); every call reads the stored texts anew. 'A permission can be given and taken again' is refuted by C104_dead_refuted, C104_service_again_refuted and C104_twice_refuted; further refutations are C104_ungrantable_refuted and C104_locked_refuted."
  },
  {
   "property": "C105",
   "status": "proved",
   "theorems": [
    "C105_calls",
    "C105_locked",
    "C105_not_below_zero",
    "C105_ledger",
    "C105_numbers",
    "C105_who",
    "C105_own",
    "C105_backed",
    "C105_unregister_refuted",
    "C105_any_network_settles_refuted",
    "C105_negative_request_refuted",
    "C105_deposits_taken_refuted",
    "C105_endless_exchange_refuted",
    "C105_unreadable_request_refuted",
    "C105_empty_name_refuted"
   ],
   "note": "Messages are what json and hex make of them; sendMessage and the token's transfer may fail and then the call is undone. 'Unregistering a token ends its use' is refuted by C105_unregister_refuted, 'only the network asked settles a transfer' by C105_any_network_settles_refuted, 'deposits are covered' by C105_negative_request_refuted and C105_deposits_taken_refuted (C105_backed says what holds without requests); further refutations are C105_endless_exchange_refuted, C105_unreadable_request_refuted and C105_empty_name_refuted."
  },
  {
   "property": "C106",
   "status": "proved",
   "theorems": [
    "C106_conserved",
    "C106_not_more",
    "C106_on_the_way",
    "C106_settled",
    "C106_covered_there_refuted",
    "C106_third_network_refuted"
   ],
   "note": "The centers and relays between the two are assumed honest: what is sent arrives at most once, unchanged, or is reported back; messages of third networks are left out (C105_negative_request_refuted and C105_deposits_taken_refuted say what they can do). 'Each contract can pay what its users can reclaim' is refuted by C106_covered_there_refuted, 'what is locked is freed in the end' by C106_third_network_refuted."
  },
  {
   "property": "C107",
   "status": "proved",
   "theorems": [
    "C107_installed",
    "C107_supply",
    "C107_held",
    "C107_covered",
    "C107_paid",
    "C107_deposit",
    "C107_own",
    "C107_minted_refuted",
    "C107_paid_refuted",
    "C107_not_taken_refuted"
   ],
   "note": "Receiving contracts are arbitrary: any tree of calls of token and service, each undone if it raises, and then return or raise; what they do elsewhere does not matter here. Nobody calls in the name of the service. 'The service can always pay what it lets users reclaim' holds without requests of other networks (C107_covered, C107_paid) and is refuted with them by C107_paid_refuted; 'who deposits can reclaim' by C107_not_taken_refuted; 'all tokens of the service belong to a user' by C107_minted_refuted."
  },
  {
   "property": "C108",
   "status": "proved",
   "theorems": [
    "C108_transfer",
    "C108_batch",
    "C108_events",
    "C108_supply",
    "C108_mint_burn",
    "C108_own",
    "C108_reentrance"
   ],
   "note": "Nobody calls in the name of the zero address. The events are replayed with the pairs that were moved; what the bytes in a batch event say is C109. Queries and the URI event are left out."
  },
  {
   "property": "C109",
   "status": "proved",
   "theorems": [
    "C109_exact",
    "C109_recursion",
    "C109_rounding",
    "C109_large_refuted",
    "C109_negative_refuted",
    "C109_events_refuted",
    "C109_overflow_refuted"
   ],
   "note": "The division x / 256 of Python is modelled as the nearest double, ties to even, as an exact integer (round53); C109_recursion shows that the fuel of the model is enough. 'Every list is written as its RLP' is refuted by C109_large_refuted and C109_negative_refuted, 'the events tell the batches apart' by C109_events_refuted, 'what can be sent alone can be sent in a batch' by C109_overflow_refuted."
  },
  {
   "property": "C110",
   "status": "proved",
   "theorems": [
    "C110_ledger",
    "C110_history",
    "C110_settings",
    "C110_limit",
    "C110_payable",
    "C110_sends",
    "C110_reward_parts",
    "C110_who",
    "C110_sets",
    "C110_pages",
    "C110_budget_below_zero_refuted",
    "C110_disqualified_refuted",
    "C110_anyone_burns"
   ],
   "note": "The platform is taken to refuse sending or burning less than nothing or more than there is. The contract that is paid may call back; burning does not call back. Sponsor, contributor, installments and the texts of events are left out. Budget not below zero and no payment after disqualification do not hold (refuted)."
  },
  {
   "property": "C111",
   "status": "proved",
   "theorems": [
    "C111_waiting",
    "C111_back_java",
    "C111_once_java",
    "C111_back_solidity",
    "C111_messages",
    "C111_accepts",
    "C111_passes",
    "C111_others",
    "C111_sends",
    "C111_one_way",
    "C111_early",
    "C111_unknown_refuted"
   ],
   "note": "The encoding of rollback data is a parameter; C111_accepts asks that it reads back what it wrote. In Solidity strings are compared by their hashes, so equal there means equal hashes. The call service itself is the subject of C67 to C71; here it may do anything."
  },
  {
   "property": "C112",
   "status": "proved",
   "theorems": [
    "C112_hex_same",
    "C112_hex_back",
    "C112_hex_read",
    "C112_hex_odd",
    "C112_hex_garbage_refuted",
    "C112_index",
    "C112_split",
    "C112_cut_unique",
    "C112_split_short_refuted",
    "C112_split_tiny_refuted",
    "C112_split_same",
    "C112_address",
    "C112_lower",
    "C112_camel_refuted",
    "C112_camel",
    "C112_camel_words"
   ],
   "note": "Letters and digits beyond ASCII are left out of the model of the Java helpers. The split of solidity/bmv, which takes apart the addresses given to the verifier, is modelled a second time in M_SolBmv; C112_split_same proves that the two are the same function. C112_address asks for a network that is not empty."
  },
  {
   "property": "C113",
   "status": "proved",
   "theorems": [
    "C113_taken",
    "C113_events",
    "C113_latest",
    "C113_usd",
    "C113_rate",
    "C113_missing",
    "C113_inverse",
    "C113_bulk",
    "C113_older_refuted",
    "C113_usd_event_refuted"
   ],
   "note": "JSON texts are lists of texts and whole numbers; other JSON values are left out. The owner of the contract is given with each call, as it may change."
  }
 ]
}