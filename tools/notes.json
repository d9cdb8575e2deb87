{
 "C04": {
  "status": "proved",
  "note": "The range and rejection claims are proved. The *_refuted theorems record that bare digits are read as decimal first, as hex only if decimal parsing fails, so unprefixed text has no uniform meaning."
 },
 "C05": {
  "status": "proved",
  "note": "Round trips proved for all three hex byte types. Refuted: the client HexBytes.Value panics/errs on short or unprefixed text (C05_client_hexbytes_total_refuted)."
 },
 "C06": {
  "status": "proved",
  "note": "Round trips and injectivity proved. Refuted theorems record panics of the client address type on short text, acceptance of over-long text, and dependence of SetString on the receiver's old contents."
 },
 "C09": {
  "status": "proved",
  "note": "Injectivity and prefix-freeness proved. C09_only_canonical_accepted_refuted records that the reader also accepts non-canonical encodings."
 },
 "C10": {
  "status": "proved",
  "note": "Proved for all types without pointers to nilable types; for *[]T and **T the round trip is refuted with witnesses. Types with custom encoders are outside the model."
 },
 "C13": {
  "status": "proved",
  "note": "Proved for byte strings, strings, integers and nil markers. For lists the claim is false: C13_list_truncation_refuted."
 },
 "C14": {
  "status": "proved",
  "note": "Proved for items with payload below 2^63; C14_skip_huge_size_refuted shows skip and raw read disagree on hostile size fields."
 },
 "C15": {
  "status": "proved",
  "note": "For hash functions that never return an empty digest and fewer than 2^62 leaves. Uniqueness of the specified root and binding (equal roots and lengths give equal contents or a collision) are proved too."
 },
 "C16": {
  "status": "proved",
  "note": "All ranges 1<=b<=e<=n of trees built by NewMerkleBinaryTree."
 },
 "C17": {
  "status": "proved",
  "note": "Proved for proofs whose node sizes are at least 1, or a collision is exhibited. The code does not check the sizes; C17_zero_sized_node_forgery_refuted gives a forgery without collision, C17_evaluation_total_refuted a panic."
 },
 "C18": {
  "status": "proved",
  "note": "Completeness for every leaf and soundness along fixed directions (or a collision)."
 },
 "C19": {
  "status": "partial",
  "note": "False in general: C19_add_equals_build_refuted (8 leaves). Equal for 1..7 leaves; for every number of leaves the grown root still binds the contents."
 },
 "C20": {
  "status": "proved",
  "note": "For additions alone and for any history of additions, queries, verifications, complete or interrupted flushes and restarts (there: or a collision). Entry hashes are 32 bytes, fewer than 2^62 entries."
 },
 "C21": {
  "status": "proved",
  "note": "Every index, before and after the query, any history. C21_negative_index_refuted: a negative index is answered with entry 0's witness."
 },
 "C22": {
  "status": "proved",
  "note": "Both claims of the property are proved. The extra direction offered by the code (newer witness, older accumulator) is partial and refuted in general: C22_new_witness_verifies_old_refuted."
 },
 "C23": {
  "status": "proved",
  "note": "For 32 byte hashes, or a collision. C23_overlong_hash_refuted: the hash length is not checked."
 },
 "C24": {
  "status": "proved",
  "note": "JSON encoding is a parameter with the round-trip hypothesis good_json (instantiated in the example). Writes succeed or fail atomically per key."
 },
 "C25": {
  "status": "proved",
  "note": "Every length and index below 2^62."
 },
 "C26": {
  "status": "proved",
  "note": "Offsets in [0,2^62). C26_verify_newer_refuted: VerifyAt with a newer height clamps and rejects what the plain accumulator accepts."
 },
 "C27": {
  "status": "proved",
  "note": "Linking, the returned value and binding are proved. Refuted: a leaf before the end is accepted and cuts the chain (C27_leaf_inside_refuted); truncated proofs and empty path items panic. The code does not check a key or a root."
 },
 "C28": {
  "status": "proved",
  "note": "Proved for every lawful base: the map backend with non-empty keys, LevelDB with bucket ids of one length. Refuted: empty keys make a flush fail half way; overlapping LevelDB bucket ids leak through a flush."
 },
 "C29": {
  "status": "proved",
  "note": "Isolation proved for the map backend and, for LevelDB/Badger keys, exactly when neither id is a prefix of the other. Refuted for prefix ids, in particular the declared empty MerkleTrie id."
 },
 "C30": {
  "status": "proved",
  "note": "Proved for all chains of this package's errors and pkg/errors stacks. Refuted: asking a nil error or an uncoded wrap of nil for its code panics."
 },
 "C31": {
  "status": "proved",
  "note": "ICON: success iff status 0x1, revert codes exact. EVM: success iff receipt status is not 0 or the revert text has a negative code (C31_eth_negative_code_refuted). Also refuted: uncoded failures are not reported to the link; hostile answers panic; family names at the boundaries."
 },
 "C32": {
  "status": "proved",
  "note": "Sender fragmentation against the fragment handler of the Java BMC: reassembly, order checks, streams of messages. Finding: the handler keeps the fragments after the last one, so a repeated last fragment would replay the message (C32_completed_message_replays_refuted)."
 },
 "C33": {
  "status": "proved",
  "note": "At every depth, any include/exclude filter."
 },
 "C34": {
  "status": "proved",
  "note": "Exact characterization of collisions; C34_distinct_signed_alike_refuted gives two different transactions with the same signed bytes."
 },
 "C47": {
  "status": "proved",
  "note": "encoding/base64 URL encoding modelled byte by byte."
 },
 "C35": {
  "status": "proved",
  "note": "Goroutines as interleaved steps of a state machine; the receiver is a parameter assumed honest. C35_*_refuted: two ready updates crash, over-limit crash or spin, non-terminating status check, repeated range."
 },
 "C36": {
  "status": "proved",
  "note": "Originally 'never discards': true for ordered records; C36_one_record_per_status_refuted and C36_shared_status_refuted state what is not."
 },
 "C37": {
  "status": "proved",
  "note": "Originally 'every result is processed', which is false: C37_first_result_is_last_refuted shows the self-deadlock on the first result."
 },
 "C38": {
  "status": "proved",
  "note": "Length of the encoded proof is a parameter. Originally 'covers exactly what it announces, within the limit': true at the start of a record only; C38_mid_block_refuted and C38_early_proof_above_limit_refuted are universal."
 },
 "C39": {
  "status": "proved",
  "note": "Originally for any number of messages, which is false; C39_bridge_skips_refuted, C39_bridge_empty_block_refuted and C39_eth_batch_refuted are universal."
 },
 "C40": {
  "status": "proved",
  "note": "ABI unpacking and bloom filters are parameters; the map enumeration is any permutation."
 },
 "C41": {
  "status": "proved",
  "note": "Node answers are parameters; C41_gap_lost_refuted and C41_below_requested_refuted state what the subscription does not guarantee."
 },
 "C42": {
  "status": "proved",
  "note": "Curve operations are parameters. Originally the [V|R|S] parser was claimed lossless too; C42_parse_vrs_refuted shows it always crashes."
 },
 "C43": {
  "status": "proved",
  "note": "scrypt, AES-CTR key stream, hashes and the curve are parameters; encoding/json's framing of the document is trusted. C43_bad_iv_refuted, C43_evm_wallet_not_stored_refuted."
 },
 "C44": {
  "status": "proved",
  "note": "Key agreement, HKDF and AES are parameters; symmetry of the agreement is a hypothesis shown satisfiable. C44_*_refuted: uncompressed recipient keys, EVM wallets, key stream reuse."
 },
 "C45": {
  "status": "proved",
  "note": "logrus itself (its own level check before the formatter) is not modelled. Originally claimed for every output; C45_file_ignores_level_refuted."
 },
 "C46": {
  "status": "proved",
  "note": "Trimming of header values by net/http is not modelled; C46_comma_refuted and C46_empty_key_refuted show the side conditions are needed."
 },
 "C48": {
  "status": "proved",
  "note": "For proof nodes of positive size adding up to less than 2^31; C48_negative_sizes_forgery_refuted shows that the contract needs this restriction and does not make it. RLPn decoding of the proof is not part of the model."
 },
 "C49": {
  "status": "proved",
  "note": "Signature recovery and hash are parameters; RLPn writing is taken to be common/codec's. C49_height_committed_refuted, C49_long_network_path_refuted."
 },
 "C50": {
  "status": "proved",
  "note": "Trust in more than two thirds of each validator set is the hypothesis that decisions with a quorum are decisions of genuine blocks. The conclusion allows a hash collision or a section encoding equal to two digests in a row. C50_*_refuted: sequence offset, late first block, second proof in one relay message."
 },
 "C51": {
  "status": "proved",
  "note": "Outcome and requests are characterised exactly. The refuted theorems record the lost hash of duplicates, the unlimited retry, the sub code 2001 that is not retried, and malformed answers."
 },
 "C53": {
  "status": "proved",
  "note": "The message center is modelled as a whole (every external method but getters and fragments, which C32 covers); payloads are decoded, names and addresses are numbers. Numbers restart at 1 when a link is removed and added again."
 },
 "C54": {
  "status": "proved",
  "note": "Services act by calls to sendMessage, with their failures caught or not; other re-entrant calls (a service that is also an owner or relay calling administration from its handler) are not modelled. C54_unparsable_blocks_refuted."
 },
 "C55": {
  "status": "proved",
  "note": "Originally claimed for every revert code; C55_service_code_misreported_refuted and C55_type_of_code_refuted."
 },
 "C56": {
  "status": "proved",
  "note": "C56_no_fee_record_refuted: a request without a fee record cannot be answered."
 },
 "C57": {
  "status": "proved",
  "note": "Originally claimed as exact conservation; the exceptions are C57_collected_twice_refuted, C57_dropped_fees_lost_refuted, C57_claim_credited_twice_refuted. Hypotheses: incoming messages are genuine (which C57_sends_genuine shows is kept by a network of such contracts), amounts are not negative, owners do not drop one-way messages with more than one fee, nobody attaches coins to a local claim."
 },
 "C58": {
  "status": "proved",
  "note": "Findings: C58_removed_link_keeps_relays_refuted, C58_any_network_settles_refuted, C58_own_messages_not_droppable_refuted, C58_old_network_id_kept_refuted."
 },
 "C59": {
  "status": "proved",
  "note": "The Java \"RLPn\" reader is library code, taken as described at the head of M_Wire.v (nil marker accepted where a list begins). Originally also claimed that the relay reads every header; C59_relay_reads_shared_type_refuted."
 },
 "C60": {
  "status": "proved",
  "note": "Gas is not modelled; word-wise memory copies stand as byte copies. Originally claimed for every tree and number; C60_byte_0x80_refuted, C60_int_minus_128_refuted, C60_reads_within_bounds_refuted give the exceptions."
 },
 "C61": {
  "status": "proved",
  "note": "Originally claimed that all three parsers accept the same texts; C61_other_protocols_refuted and C61_account_with_slash_refuted give the differences."
 },
 "C62": {
  "status": "proved",
  "note": "Originally claimed that both contracts return the messages handed over; C62_java_several_messages_refuted: the Java contract fills only the first element of the array. Events for other receivers with the expected number are skipped by the Solidity contract without raising the number, so that a later event must carry the same number."
 },
 "C63": {
  "status": "proved",
  "note": "Originally claimed for all four pairs of writer and reader; C63_eth_to_java_refuted, C63_eth_link_stops_refuted, C63_first_proof_only_refuted give the exceptions. go-ethereum's rlp encoder is library code, taken as writing an unsigned big.Int without leading zeros."
 },
 "C64": {
  "status": "proved",
  "note": "Originally claimed without the exception for messages made of two digests; C64_zero_sized_node_refuted delivers a message never sent. Array lengths are taken to be far below 2^256; gas is not modelled."
 },
 "C65": {
  "status": "proved",
  "note": "Originally claimed that a quorum of signatures suffices and that new validators are the signed ones; C65_missing_signature_refuted and C65_validators_not_committed_refuted. ecrecover is a parameter; the zero address it returns on failure is not rejected by the code, so that a validator list with address zero is satisfied by any bytes."
 },
 "C66": {
  "status": "proved",
  "note": "Originally claimed that every message is handed over once and in order; C66_proof_again_refuted and C66_ex_twice: a proof is accepted again while the block counts as unfinished, another message is lost. The hypothesis that new validators are the signed ones is needed because of C65_validators_not_committed_refuted."
 },
 "C67": {
  "status": "proved",
  "note": "Originally claimed that an announced rollback stays executable and that only the network called can answer; C67_rollback_cancelled_refuted and C67_response_from_anywhere_refuted. C67_empty_rollback_refuted: empty rollback data counts in Java only. Transactions are assumed as tx_ok says: senders are not the zero address, networks have no slash, error numbers fit 256 bits. sn >= 2^128-1 cannot occur in Solidity (the writer reverts)."
 },
 "C68": {
  "status": "proved",
  "note": "Originally claimed that every request can be executed and is answered; C68_empty_sender_stuck_refuted and C68_big_number_stuck_refuted. If a called Java contract ends in another way than by a revert, executeCall fails as a whole and the request stays."
 },
 "C69": {
  "status": "proved",
  "note": "Plain transfers of coins to the contract outside the service's methods are not modelled (Java's contract has no fallback; Solidity's has no receive function)."
 },
 "C70": {
  "status": "proved",
  "note": "Originally claimed equal bytes and unchanged data without exception; C70_leading_zero_refuted, C70_byte_0x80_refuted. The Java platform's reader is modelled as in C59 and is taken to accept lengths with leading zeros, as the Go codec does; its readBoolean is taken to accept the single bytes 0 and 1."
 },
 "C71": {
  "status": "proved",
  "note": "C71_long_error_code_refuted: Integers.toString has room for 32 digits. In Solidity the service name is compared by its hash."
 },
 "C72": {
  "status": "proved",
  "note": "Original wording: saving keeps where all paths lead, and a name saved to can be loaded from. Refuted by C72_save_moves_refuted, C72_save_option_moves_refuted, C72_save_log_refuted, C72_same_name_refuted; C72_relative_file_refuted: with a relative file path the result is not absolute. path/filepath is modelled by its documented behaviour; symbolic links are left aside."
 },
 "C73": {
  "status": "proved",
  "note": "Original wording: every error that ends a link ends the program. Refuted by C73_early_error_lost_refuted and C73_receiver_error_lost_refuted; C73_sender_options_refuted: options are given to the wrong side. Loggers and the base directory are left out."
 },
 "C74": {
  "status": "proved",
  "note": "Original wording: an unreadable secret file stops the command. Refuted for the source by C74_unreadable_secret_refuted. C74_no_key_store_file_refuted: the option names asked for are not defined. Key store encryption is a parameter; C43 shows the assumption for the model of common/wallet."
 },
 "C75": {
  "status": "proved",
  "note": "C75_narrowing_detected_refuted, C75_four_gigabytes_refuted, C75_kinds_told_apart_refuted, C75_extension_refuted. github.com/vmihailenco/msgpack is modelled by the format and its documented choices; ReadRaw and WriteRaw are left out. codec.MP has no user in the repository."
 },
 "C76": {
  "status": "proved",
  "note": "Counters are taken not to overflow 256 bits; gas is not modelled. Services may call sendMessage while they are called, nothing else."
 },
 "C77": {
  "status": "proved",
  "note": "C77_unreadable_message_blocks_refuted, C77_unnumbered_request_blocks_refuted, C77_service_without_code_blocks_refuted, C77_large_number_blocks_refuted: what stops a link until an owner drops the message. C77_not_blocked asks that rewards leave room below 2^256."
 },
 "C78": {
  "status": "proved",
  "note": "Counted per network and serial number as the messages carry them; a source that numbers two requests alike gets as many answers as requests."
 },
 "C79": {
  "status": "proved",
  "note": "Hypotheses: memory and delivered bytes hold bytes, amounts in calls and in the calls services make are unsigned. C79_coins_stuck_refuted: coins of deposits and coins sent along with a claim of own coins are owed to nobody."
 },
 "C80": {
  "status": "proved",
  "note": "The condition under which routes lead somewhere is spelled out as orderly (S_SBmc2.v). Nine _refuted theorems show that the conditions are needed: among others C80_neighbour_unroutes_refuted (a neighbour's Unlink deletes the route of a direct link), C80_new_link_used_refuted and C80_links_once_refuted (a link to an already announced network is not used and can be added twice), C80_announced_by_its_link_refuted (announcements in another network's name), C80_can_remove_refuted (a link that can no longer be removed)."
 },
 "C81": {
  "status": "proved",
  "note": "C81_asked_network_settles_refuted, C81_reward_back_once_refused_refuted: handleResponse does not look where the answer comes from. C81_own_name_reserved_refuted: addService accepts the name bmc (a TODO in the code). C81_handler_keeps_reward_refuted: a fee handler claims for the message center only."
 },
 "C82": {
  "status": "proved",
  "note": "Original wording: both sides read whatever either writes. C82_number_128_refuted, C82_reply_to_128_refuted, C82_unreadable_stops_link_refuted: -128 is written as the empty string and blocks the link. C82_byte_0x80_refuted: the payload 0x80 arrives empty. C82_leading_zero_refuted: not the same bytes at 255. C82_wide_numbers_not_forwarded, C82_long_code_refuted: numbers one side accepts and the other does not."
 },
 "C83": {
  "status": "proved",
  "note": "C83_height_checked_refuted: with an odd number of entries the last hash is accepted for every height. C83_limited_go_witness_refuted: pruned roots and unpruned witnesses do not fit. C83_ensureRoots_ends_refuted, C83_ensureRoots_keeps_refuted, C83_ensureCache_keeps_newest_refuted: changing the sizes later (these methods have no caller in the repository)."
 },
 "C84": {
  "status": "proved",
  "note": "C84_only_keys_of_tree_refuted: a leaf is accepted for every prefix of its key (harmless for encoded indexes, C84_index_exact). C84_contained_unprovable: nodes contained in their parent have no hash and end in a NullPointerException. C84_failures_reported_refuted: short proofs, missing keys and empty headers end in exceptions other than MPTException, which proveReceiptProof does not translate."
 },
 "C85": {
  "status": "proved",
  "note": "C85_messages_lost_refuted: handleRelayMessage fills the array to be returned with ret[i] = msg without increasing i, so a relay message with two or more messages returns the last one and nulls, which the message center cannot decode. Heights are unbounded integers in the model. The status of a receipt is not looked at by the contract. C85_messages assumes that the receipts hash of the block and the logs hashes of its receipts are roots of trees keyed by encoded indexes (C84)."
 },
 "C86": {
  "status": "proved",
  "note": "C86_longer_result_refuted: a result with a fifth element is read and its header hashed without it. C86_null_extension_refuted: a null fourth element is an exception. The platform's reader and writer are those of M_Wire. Calls of C86_state_kept are with messages of bytes, and the accumulator has no root limit, as after every deployment."
 },
 "C87": {
  "status": "proved",
  "note": "Verifiers are assumed to answer only with messages put out for this center, in order from the number asked for: C50, C62, C66 and C85 are about when the modelled ones do. C87_link_added_again_refuted, C87_wrong_drop_refuted: what happens without the other two conditions. At most one, not exactly one: messages may be dropped (C54, C56)."
 },
 "C88": {
  "status": "proved",
  "note": "Of the token contract the balances and supplies are modelled; approval and ownership are behaviours of each call. Receivers do not call back during a call. Token ids (hashes of names) are assumed distinct. That fees never shrink is part of C88_who: there is no way to take them out. C89 joins several services."
 },
 "C89": {
  "status": "proved",
  "note": "The message centers are represented by what C87 proves of them (at most once, unchanged) plus the freedom to turn any request back; that an answer may be turned back as an error to the one who gave it (dropMessage, an asker whose handler reverts) is an operation of the model excluded in the positive theorems and used in C89_answer_turned_back_refuted. Reading the code: the answer goes out under the sender's number as a new two-way message, so its error arrives with that number."
 },
 "C90": {
  "status": "proved",
  "note": "The platform's RLPn reader and writer are those of M_Wire (see C59). The link to C88: body_in gives the message M_Ncs handles."
 },
 "C91": {
  "status": "proved",
  "note": "One token service with IRC2Basic tokens. setBalance is external and unchecked (C91_anybody_writes_refuted), so no_hand excludes it. Receivers do not call back into the service. Contract owner and message center are fixed."
 },
 "C92": {
  "status": "proved",
  "note": "The platform's RLPn reader and writer are those of M_Wire (see C59). tbody_in gives the message M_Tbsh handles."
 },
 "C93": {
  "status": "proved",
  "note": "Token contracts are the amounts this contract holds; nobody called calls back. fair asks for deposits above 0 and prices not below 0; distinct for different tokens under different names; the refutations show what happens otherwise."
 },
 "C94": {
  "status": "proved",
  "note": "Reads and writes of a slice are taken to be indivisible and ordered, which is more than Go promises for racing accesses. The records are any type with a height and a number."
 },
 "C95": {
  "status": "proved",
  "note": "The goroutines are events (fetch, take, build, status) that each run to their end; C94 looks inside them. The node answers headers, messages and proofs of the blocks the chain signed. Blocks whose messages do not fit into one relay message are outside this theorem; C35 to C37 say what the link does with those."
 },
 "C96": {
  "status": "proved",
  "note": "The fetch of a block, its reception by the link and its handling are separate events; a handler of the link runs to its end. Relay results are left out, as the trust-based sender reports none that change what is sent in these runs (M_Link.v models them). The full statement (all messages arrive for every chain) is refuted by six theorems."
 },
 "C97": {
  "status": "proved",
  "note": "Text is its UTF-8 bytes and which bytes are UTF-8 is a parameter; exceptions are one value. Sizes stay below 2^53 for the divisions in floating point. That dicts used as types are emptied by reading is part of the model (the type object afterwards is returned). The full statement (for payloads of any size, one encoding per value, nested types) is refuted by five theorems."
 },
 "C98": {
  "status": "proved",
  "note": "Indices stay below 2^53 (int(idx/2) is a division in floating point). Stored bytes with a nil marker in a field of numbers are refused when read here, not when used. The full statement for witnesses of later heights, smaller numbers of roots, heights beside witnesses and stores of 65536 bytes is refuted by five theorems."
 },
 "C99": {
  "status": "proved",
  "note": "Exceptions are one value. The full statement for values of branches, keys that are prefixes of keys, and leaves with the nil marker is refuted by three theorems; values behind an extension that contains its child cannot be proved (C99_contained_in_extension)."
 },
 "C100": {
  "status": "proved",
  "note": "The dictionary is modelled without with_flush, which no contract sets. Values of nested dictionaries are objects named by their key; what they store is another part of the store. The full statement (a dictionary, whatever is done) is refuted by C100_removed_again_refuted, C100_short_key_lost_refuted and C100_remove_all_refuted; C100_dict_as_marked says exactly what the dictionary does instead. Unsetting is refuted for the next call by C100_unset_comes_back_refuted."
 },
 "C101": {
  "status": "proved",
  "note": "Signature recovery, the address functions of the platform and the test for UTF-8 are parameters. The state is a record (C98_stored, C100_props say that it is read back as written). The tree theorem asks for trees keyed by index with 32-byte hashes, as C99 does, and for keys of proofs below 2^63 bytes. 'Messages for other centers are passed over' is refuted by C101_other_center_refuted; C101_repeated_validators_refuted, C101_absent_validators_refuted, C101_no_parameters_refuted and C101_logs_in_receipt_refuted are the other differences."
 },
 "C102": {
  "status": "proved",
  "note": "What the verifier answers, which relay may call and what the services do are parameters; services may send messages while they are called. The dictionaries are lists in the order of keys (C100 says when). 'Every message is delivered or answered' is refuted by C102_stuck_refuted, C102_poison_refuted, C102_lost_refuted, C102_service_stops_refuted and C102_route_nowhere_refuted; the other refutations are C102_wrong_center_refuted, C102_answered_error_refuted, C102_plain_route_refuted, C102_told_text_refuted, C102_told_for_another_refuted and C102_two_links_refuted. C102_answers asks for services that send nothing and for texts that are addresses."
 },
 "C103": {
  "status": "proved",
  "note": "Floats are binary64 numbers without overflow and denormals. The messages and the height reported by the verifier are parameters. 'One relay per height' holds without messages and is refuted with them (C103_choice_refuted); the exact term by C103_term_refuted; further refutations: C103_no_relays_refuted, C103_remove_refuted, C103_stays_refuted, C103_anyone_refuted, C103_no_cancel_refuted, C103_no_withdraw_refuted."
 },
 "C104": {
  "status": "proved",
  "note": "Dictionaries are lists in the order of their keys (C100 says when); every call reads the stored texts anew. 'A permission can be given and taken again' is refuted by C104_dead_refuted, C104_service_again_refuted and C104_twice_refuted; further refutations are C104_ungrantable_refuted and C104_locked_refuted."
 },
 "C105": {
  "status": "proved",
  "note": "Messages are what json and hex make of them; sendMessage and the token's transfer may fail and then the call is undone. 'Unregistering a token ends its use' is refuted by C105_unregister_refuted, 'only the network asked settles a transfer' by C105_any_network_settles_refuted, 'deposits are covered' by C105_negative_request_refuted and C105_deposits_taken_refuted (C105_backed says what holds without requests); further refutations are C105_endless_exchange_refuted, C105_unreadable_request_refuted and C105_empty_name_refuted."
 },
 "C106": {
  "status": "proved",
  "note": "The centers and relays between the two are assumed honest: what is sent arrives at most once, unchanged, or is reported back; messages of third networks are left out (C105_negative_request_refuted and C105_deposits_taken_refuted say what they can do). 'Each contract can pay what its users can reclaim' is refuted by C106_covered_there_refuted, 'what is locked is freed in the end' by C106_third_network_refuted."
 },
 "C107": {
  "status": "proved",
  "note": "Receiving contracts are arbitrary: any tree of calls of token and service, each undone if it raises, and then return or raise; what they do elsewhere does not matter here. Nobody calls in the name of the service. 'The service can always pay what it lets users reclaim' holds without requests of other networks (C107_covered, C107_paid) and is refuted with them by C107_paid_refuted; 'who deposits can reclaim' by C107_not_taken_refuted; 'all tokens of the service belong to a user' by C107_minted_refuted."
 },
 "C108": {
  "status": "proved",
  "note": "Nobody calls in the name of the zero address. The events are replayed with the pairs that were moved; what the bytes in a batch event say is C109. Queries and the URI event are left out."
 },
 "C109": {
  "status": "proved",
  "note": "The division x / 256 of Python is modelled as the nearest double, ties to even, as an exact integer (round53); C109_recursion shows that the fuel of the model is enough. 'Every list is written as its RLP' is refuted by C109_large_refuted and C109_negative_refuted, 'the events tell the batches apart' by C109_events_refuted, 'what can be sent alone can be sent in a batch' by C109_overflow_refuted."
 },
 "C110": {
  "status": "proved",
  "note": "The platform is taken to refuse sending or burning less than nothing or more than there is. The contract that is paid may call back; burning does not call back. Sponsor, contributor, installments and the texts of events are left out. Budget not below zero and no payment after disqualification do not hold (refuted)."
 },
 "C111": {
  "status": "proved",
  "note": "The encoding of rollback data is a parameter; C111_accepts asks that it reads back what it wrote. In Solidity strings are compared by their hashes, so equal there means equal hashes. The call service itself is the subject of C67 to C71; here it may do anything."
 },
 "C112": {
  "status": "proved",
  "note": "Letters and digits beyond ASCII are left out of the model of the Java helpers. The split of solidity/bmv, which takes apart the addresses given to the verifier, is modelled a second time in M_SolBmv; C112_split_same proves that the two are the same function. C112_address asks for a network that is not empty."
 },
 "C113": {
  "status": "proved",
  "note": "JSON texts are lists of texts and whole numbers; other JSON values are left out. The owner of the contract is given with each call, as it may change."
 }
}
