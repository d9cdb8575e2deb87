# Formal model of icon-project/btp in Rocq: design

## How the model is organised

Every modelled package has up to four files in `rocq/theories/`:

* `M_<pkg>.v`  – the model: total Gallina functions, one per Go function, each with a comment
  citing file and lines; no proofs.
* `S_<pkg>.v`  – the independent specification used in theorem statements (small, no reference to
  the model's helpers).  Absent when the statement needs only standard-library notions.
* `L_<pkg>.v`  – lemmas.
* `T_<pkg>.v`  – the property theorems, each closed by `exact`, followed by `Print Assumptions`, with
  an `Example` showing a concrete non-trivial instance of the hypotheses.

Conventions: a Go `byte` is a `Z`; byte-ness is the predicate `bytes_ok` (each element in 0..255).  Go
strings are byte lists.  `int`, `int64`, `uint64` are `Z`, wrap-around written out explicitly.  Go
errors are values of `result`; a run-time panic is a separate constructor so that theorems can say
"never panics".  Hash functions, ciphers, key derivation, the network and the chain are parameters
of the functions (universally quantified in theorems), never axioms; collision resistance appears as
"the claim, or an explicit collision".  Nil versus empty slices are distinguished when the code does.

Where the code does not satisfy the natural English property, we prove what it does satisfy and add a
`..._refuted` theorem with a concrete witness.  These are listed under "Findings".

## Plan per property

| id | modelled | how proved |
|----|----------|-----------|
| C01 | BigIntToBytes / BigIntSetBytes over Z | induction on byte length; minimality against an independent two's-complement value function |
| C02 | the four 64-bit loops and the two size loops, as bounded loops | loop invariants; equality with the C01 encoder |
| C03 | Format*/Parse* on character lists | hex digit algebra, induction on digits |
| C04 | ParseInt/ParseUint including Go's base-0 integer literal parser | case analysis, range invariant of the accumulating loop |
| C05 | three hex byte types | induction |
| C06 | common.Address as 21-byte list, client.Address | hex round trip plus prefix analysis |
| C07 | strings.Index/Split models and BtpAddress methods | induction on strings |
| C08, C09 | rlpWriter as a function to bytes, rlpReader as a function from remaining bytes to item and rest | mutual induction over trees; header arithmetic |
| C10, C11, C12 | a deep embedding of the supported Go types and values, reflection-driven encode/decode | induction on types/values; sorting is permutation-invariant |
| C13, C14 | same reader | case analysis on headers, length induction |
| C15–C19 | node structure with level/leaf counts, add, lazyAdd, proof, verify, path | structural invariants; collision-or-equal induction |
| C20–C26 | accumulator with slots, resolvable nodes, bucket store, JSON/RLP state record abstracted as a record | binary-counter invariant, perfect-tree induction, crash points as prefixes of the write list |
| C27 | mpt node decoding over the RLP reader and proof chain | induction on the proof list |
| C28, C29 | map/layer buckets as association functions, key concatenation | refinement to an overlay map; prefix argument |
| C30, C31 | error chains as an inductive type; revert mapping; transaction results | induction on chains, case analysis |
| C32 | sender fragmentation and the BMC fragment handler | induction on number of fragments |
| C33, C34 | recursive serializer over JSON values | permutation invariance of sort; unique parsing by induction |
| C35–C37 | link as a state machine over events | invariants by induction on traces |
| C38–C40 | receivers' proof builders over abstract blocks | arithmetic on offsets, permutation invariance of sort |
| C41 | MonitorBlock as a function of the observed heads | induction on head list |
| C42 | signature layouts | list algebra |
| C43, C44 | keystore and encrypted value with abstract crypto | algebra, collision-or-equal |
| C45 | level filter | case analysis |
| C46 | header formatting/parsing | string induction |
| C47 | Go's URL-safe base64 encoder and Java's decoder | induction by groups of three bytes |
| C48 | Java verifier: tree of a message proof, `verify`, `proveMessage` | simulation of the Go tree of C15–C17; collision-or-equal |
| C49 | Java verifier: block update, network section root, votes | inversion of `handleBlockUpdate`; pigeonhole on distinct votes |
| C50 | Java verifier as a state machine over relay messages | trace invariant: what was delivered is a prefix of the genuine messages, or a collision |
| C51 | JSON-RPC exchange, the retry loop, relaying of fragments | induction on the list of answers |
| C52 | EnumerableDictDB with its three stores | refinement to an association list |
| C53–C58 | the Java message center: every external method except getters; services, verifiers and the chain are arbitrary functions | invariants over all histories; a ledger relation for the fees; relational monotonicity for rewards |
| C59 | relay messages as bytes: the Go encoder on one side, the readObject methods of the Java verifier on the other | a reader/tree relation composed over the format; end to end with C50, C47 and C32 |
| C60 | the Solidity RLP reader over memory as a function from addresses to bytes, unknown behind the message; the writer as a function to bytes | header arithmetic against C08's writer; shortest two's complement against C01's |
| C61 | the Solidity, Java and Go address parsers over byte strings; account texts with checksum | both directions of an "accepts exactly" theorem for each parser, then agreement |
| C62 | both bridge verifiers over decoded receipts | a small relation "takes from the expected number on", shown equivalent to either loop |
| C63 | the two relay encoders, the Java reader and the Solidity reader of bridge messages | one tree of RLP items, parametric in how numbers are written; reader lemmas of C59 and C60 |
| C64 | MessageProofLib.sol with its ring buffer, levels in 256-bit arithmetic | ring buffer refines a list; passes over the queue refine a tree's frontier; soundness over trees that may contain empty nodes |
| C65 | decoding of headers, section and decision hashes, vote counting with ecrecover as parameter | hashes shown equal to those of the chain of C48-C50; counting against the number of matching places |
| C66 | the whole contract over histories of calls | invariant relating state and delivered list to a position in the chain; the readers of C60 on the relay's bytes |
| C67, C68 | both implementations of the call service, with nested calls; a history as a list of events | one relation of steps that both satisfy, and an observer per call that reads the history and must never object; consequences in plainer words are derived from the observer |
| C69 | the same, with balances | an observer of the coins, and sums over the history |
| C70 | the message structures in bytes, Java's writer and reader and Solidity's | the readers of C59 and C60 on lists whose length may have a leading zero; a call and its response composed through both implementations |
| C71 | the access checks of both implementations | settings unchanged by induction over calls and what called contracts do |
| C72 | cleaning and joining of paths, the functions of FileConfig, the paths in the relay's commands | a path is walked name by name from a place in the tree; the functions are shown to preserve the place by induction over the names |
| C73 | which receivers and senders are made; program, links and goroutines as a step relation | case analysis; invariant over all interleavings, witnesses for lost errors with an invariant that nothing follows |
| C74 | passwords and key stores of the save and start commands, encryption as parameter | case analysis |
| C75 | the MessagePack reader and writer under the encoder and decoder of codec.go; the format as a relation between items and bytes, with every form of each item | induction over types; every reader is shown to depend on the bytes it consumes alone, from which prefix properties follow |
| C76 | the three contracts of the message center for the EVM as one state and an output; verifiers, services and receivers of coins as parameters that may answer differently each time | every function extends the output and relates numbers kept and numbers put out; induction over calls |
| C77 | the same | the output of one relay message is cut into one segment per message; success by following the whole handling of an ordinary message |
| C78 | the same | a relation between waiting requests, messages taken in and answers put out, kept by every function, composed over calls |
| C79 | the same; bytes are bytes and amounts unsigned | a balance equation per network with what is in hand between books and output, kept by every function, composed over calls |
| C80 | the same; routing events as in S_SBmc2 | invariant of all histories for the tables; transactions are shown to be sequences of routing events; an invariant of orderly events, with a second one while a link is being removed; concrete histories for what fails |
| C81 | the same | invariant of all histories for the owners; the effect of every call on every table, composed over calls; rewards grow in every function except clearing; concrete histories for what fails |
| C82 | messages of the Java message center as bytes, and the Solidity libraries for the same messages; the format as trees, with a relation between trees and bytes that leaves room for leading zeros in lengths | the relation is kept by every writer and enough for every reader |
| C83 | MerkleTreeAccumulator.java of the ICON block verifier, with its settings; histories of additions; Go's accumulator (M_Mta) beside it | invariant over additions (roots, offset, ring of the cache), with pruning as a shift of the sequence; witnesses as paths in the tree of kept hashes |
| C84 | MerklePatriciaTree.java of the ICON block verifier: reading nodes, proving | trees and their bytes as specification; reading what the tree writes; induction over proofs and over ways in the tree; prefix-freeness of encoded indexes |
| C85 | BTPMessageVerifier.java of the ICON block verifier and the byte forms it reads | certified chains, quorums and message events as specification; equivalence for updates and events; counting argument for two quorums; invariant over all calls; C83 and C84 for block proofs and receipts |
| C86 | the writers of all classes of the ICON block verifier, BMVProperties and MerkleTreeAccumulator as bytes | read-after-write lemmas combined per class; injectivity from reading back; invariant over calls: readers of bytes give bytes, the accumulator keeps to bytes |
| C87 | all message centers of a network of networks (M_JBmc for each), relays and verifiers between them | per-call potential inequalities (L_NetW) for seven weights; invariant over all histories: inputs are prefixes of channels; sums over networks and channels; origin invariant per name |
| C88 | NativeCoinService with its token contract: calls as functions of the state | effects of every call as field updates (L_Ncs2), one invariant over all histories (L_Ncs3) |
| C89 | several services (M_Ncs) and the messages between them; a step is a call, a delivery, a request turned back or an answer turned back | one invariant over networks and messages (L_NcsNet), counting answers and ends (L_NcsNet2) |
| C90 | readObject and writeObject of javascore/nativecoin over the item reader of M_Wire | trees of items and all their byte forms (S_Msg), parser combinators |
| C91 | ServiceHandler.java as functions on its stored maps and the ledgers of the tokens; everything done is logged | invariants over all call sequences; sums over the history (S_Tbsh) |
| C92 | readObject and writeObject of javascore/bsh/types and createMessage over the item reader of M_Wire; String.lastIndexOf and substring | trees of items and all their byte forms (S_Msg), parser combinators; last occurrences |
| C93 | FeeAggregationSCORE.java, Syndication.java and Token.java as functions on the stored maps; everything done is logged | invariants over all call sequences; arithmetic of shares; sums over the history (S_Fee) |
| C94 | append and cut of the shared lists as reads and writes of a slice, in any interleaving | invariant (stretches of lists); refutation by an interleaving, for all records and statuses |
| C95 | receiver, link, wire format, fragments and Java verifier composed; goroutines as events | induction over the chain, composing C32 and the round of the link with the verifier's invariant; refutations for all chains |
| C96 | receiver, link, wire format and both bridge verifiers composed; goroutines as events | induction over the chain, composing C39/C40, C63 and the round of the link with the verifiers; refutations for all chains |
| C97 | rlp.py and base64.py as functions on lists of bytes | the writer is shown equal to the Go writer below 65536 bytes (C08 gives RLP), the reader by induction on the type; base64 by induction on the groups; refutations for all bytes |
| C98 | mta.py as a record and functions; exceptions as values | simulation with the Java accumulator (C83) for the roots, induction over the witness for soundness, C97 for the stored bytes; refutations for all inputs |
| C99 | nodes as an inductive type read from bytes with C97's decoder, prove as recursion on the proofs and the contained nodes | trees of S_JMpt.v; induction over the way for accepted proofs, over proofs and trees for soundness, keys shown prefix-free by C84 |
| C100 | the object of one call with its cache, keys and marks, and the store behind it; a call starts with a new object | simulation of the ordered dictionary with marks; equality with the dictionary under no_fresh_removed; properties simulated by a map with defaults |
| C101 | the messages as RLP types of C97, the accumulator of C98, the tree of C99; one function per method, exceptions as values | acceptance of updates and of events as equivalences with inductive chains and message lists; quorum intersection by counting; induction over calls; prefix-freeness of all keys a proof can have |
| C102 | one function per method, exceptions as values, calls that raise are undone; services a function of what was put out before | a relation 'same center, what was put out' that composes, for every step of a relay message; invariants by induction over calls; the search for the next hop against an inductive specification |
| C103 | Python's floats as m * 2^e with round-half-even division; the link as a record, one function per method, exceptions as values | the error of a division bounded by half a unit, so that no integer lies between the quotient and its float; uniqueness of the number of turns; induction over heights and over histories |
| C104 | the stored texts with their commas, one function per method, calls that raise are undone | splitting and joining shown to be inverse; what each call does to the set of permissions held; induction over histories |
| C105 | one function per method over the stored dictionaries, calls that raise are undone, the center and the tokens may fail | outcomes of each call as an inductive relation, shown both ways; invariants by induction over histories: locked = open transfers, sums per name and per token, numbers |
| C106 | two M_PyToken contracts and the sets of messages between them as a transition system | invariant by induction over histories: one message on the way per open transfer, sums of balances, a symmetric half step used for both sides |
| C107 | the balances of the token and M_PyToken as one world, calls as trees of nested calls | induction over trees: every tree is a list of calls of the service with matching change of its token balance; then C105_backed |
| C108 | balances, approvals, creators and events as maps and a list; receivers that call back as trees | invariant (balances equal the replay of events) by induction over histories; trees flattened to lists of calls |
| C109 | int_to_bytes with division of doubles modelled on integers, encoder over lists | induction on the number of bits; refinement of the RLP specification S_Rlp.v; counterexamples computed |
| C110 | settings, balance, keys and budgets with a list of what happened; calls back as trees | invariant (ledger, last settings, every entry allowed when it happened) by induction over trees and histories; exact conditions per call; pages by induction |
| C111 | ids, stored data and a list of what happened; the call service as trees of calls | invariant (stored data is what waits, ids given out once, every entry fair when it happened) by induction over trees with the ids that are being sent |
| C112 | the two loops of split with offsets into the text; hexadecimal digits as functions on numbers; an inductive cut as specification | induction on the text left over, bit arithmetic, uniqueness of the cut |
| C113 | stored data per symbol and the list of events; updates as folds | invariant (stored data is the newest update told) by induction over histories; floor division bounds |

Everything above is expressible in a model.  What stays outside is listed under "What is modelled and what is not".

## Trusted base

1. Coq 8.16.1's kernel, including its conversion by `vm_compute` (used in examples and in the theorems about
   concrete witnesses).
2. No axioms.  Each theorem named in MANIFEST.json is followed by `Print Assumptions`; each prints
   "Closed under the global context".  `tools/assumptions.sh` repeats this for all of them after a build.
   (The axiom-like constants of `Coq.ssr.ssrunder` that a scan of the loaded libraries shows are the parameters of a
   module type in the standard library that `Lia`/`ZifyBool` load; no theorem depends on them.)
3. The reading of the source: that the definitions in `M_*.v` say what the cited lines do.  The build does not connect
   them to the Go, Java or Solidity compilers.
4. Library code that is modelled by its documented behaviour: Go `math/big` as `Z`, `strconv`, `strings`, `path/filepath` (on unix),
   `encoding/base64`, `encoding/binary`, `sort`, go-ethereum's `rlp` encoder; the Java contract API's dictionaries and RLPn reader and writer
   (lengths with leading zeros accepted as by the Go codec, truth values as the bytes 0 and 1), `java.util.Base64`;
   the EVM's word operations, memory and the compiler's checked arithmetic (gas is not modelled).
5. Parameters instead of code (theorems hold for all of them, except where a hypothesis is stated): hash functions, curve
   operations, AES key stream, scrypt, HKDF, `encoding/json` of the accumulator state, HTTP answers, the node, called
   contracts, verifiers, the chain.  Where security of a hash matters the conclusion is "… or this explicit pair of
   different inputs has the same hash".

## What is modelled and what is not

Modelled, function by function (file headers say where simplified):

| source | model | properties |
|---|---|---|
| common/intconv | M_IntConv | C01–C04 |
| common/hexbytes.go, hexint.go, address.go, chain/icon/client types HexBytes/Address, common/types/address.go | M_Address | C05–C07 |
| common/codec/rlp.go, codec.go, typed.go subset | M_Rlp, M_Codec | C08–C14 |
| common/mbt | M_Mbt | C15–C19 |
| common/mta | M_Mta | C20–C26 |
| common/mpt | M_Mpt | C27 |
| common/db (map, LevelDB keys, layer) | M_Db | C28, C29 |
| common/errors, chain/*/client/error.go | M_Errors | C30 |
| chain/icon/sender.go, chain/ethbr/sender.go (results), MapError | M_Sender | C31 |
| chain/icon/sender.go (fragments), BTPMessageCenter.java handleFragment | M_Fragment | C32, C47 |
| chain/icon/client/serialize.go | M_Serialize | C33, C34 |
| common/link/link.go | M_Link | C35–C37 |
| chain/icon/btp2, chain/icon/bridge, chain/ethbr receivers, ethbr monitor | M_Receive | C38–C41 |
| common/crypto, common/wallet | M_Crypto | C42–C44 |
| common/log/filter.go, chain/icon/client options | M_Misc | C45, C46 |
| javascore/bmv/btpblock | M_JBmv | C48–C50 |
| common/jsonrpc/client.go, chain/icon/client SendTransaction, chain/icon/sender.go | M_SendTx | C51 |
| javascore/bmc EnumerableDictDB, BTPMessageCenter | M_JDict, M_JMap, M_JBmc | C52–C58 |
| chain/icon/btp2/message.go, BuildRelayMessage, the readObject methods of javascore/bmv/btpblock | M_Wire | C59 |
| solidity/*/contracts/libraries/{RLPDecode,RLPEncode}.sol | M_SolRlp | C60 |
| javascore/lib BTPAddress.java, solidity libraries BTPAddress.sol, ParseAddress.sol | M_BtpAddr | C61 |
| javascore/bmv/bridge, solidity/bmv-bridge, message.go of chain/icon/bridge and chain/ethbr | M_Bridge | C62, C63 |
| solidity/bmv (BtpMessageVerifier.sol and libraries; not the getters and Migrations.sol) | M_SolBmv | C64, C65, C66 |
| javascore/xcall, solidity/xcall (CallService and its messages; not the getters) | M_XCall, M_JCall, M_SolCall | C67–C71 |
| common/config/fileconfig.go, common/http.go resolveUnixPath, paths in cmd/relay/main.go | M_Path | C72 |
| cmd/relay (linkfatory.go, key stores in main.go), goroutines of common/link/link.go | M_Relay | C73, C74 |
| common/codec/msgpack.go (not ReadRaw, WriteRaw) with codec.go and bytes.go | M_MsgPack | C75 |
| solidity/bmc/contracts BMCManagement.sol, BMCPeriphery.sol, BMCService.sol, libraries Utils.sol, RLPEncodeStruct.sol, RLPDecodeStruct.sol (not the getters, setBMCPeriphery, setBMCService; the contracts are taken to be wired together) | M_SBmc | C76, C77, C78, C79, C80, C81, C82 |
| javascore/bmc BTPMessage, FeeInfo, BMCMessage, ResponseMessage, ClaimMessage, InitMessage, LinkMessage, UnlinkMessage (bytes; not the statuses and the other database records) | M_JMsg | C82 |
| javascore/bmv/icon MerkleTreeAccumulator.java (not the byte form and the getters; heights do not wrap at 2^63) | M_JMta | C83 |
| javascore/bmv/icon MerklePatriciaTree.java (not toString) | M_JMpt | C84 |
| javascore/bmv/icon BTPMessageVerifier.java | M_JIbmv | C85 |
| javascore/bmv/icon readObject/writeObject of BlockHeader, Result, ExtensionData, Votes, Vote, VoteMessage, PartSetId, Validators, BlockUpdate, BlockProof, BlockWitness, MPTProof, Proofs, ReceiptProof, Receipt, EventLog, RelayMessage | M_JIcon | C85 |
| javascore/bmv/icon writeObject of the classes of the relay message, readObject/writeObject of BMVProperties, MerkleTreeAccumulator | M_JIstore | C86 |
| javascore/bmc BTPMessageCenter.java, many of them joined by relays | M_Net | C87 |
| javascore/nativecoin NativeCoinService.java, irc31/OwnerBasedIRC31Supplier.java (balances and supplies) | M_Ncs | C88 |
| javascore/nativecoin NativeCoinService.java on several networks | M_NcsNet | C89 |
| javascore/nativecoin NCSMessage, TransferRequest, TransferResponse, Asset, AssetTransferDetail, TransferTransaction, Balance, NCSProperties (bytes) | M_NcsBytes | C90 |
| javascore/bsh ServiceHandler, irc2/IRC2Basic.transfer, types/Asset, TransferAsset, Balance, Token | M_Tbsh | C91 |
| javascore/bsh createMessage, encodeToBytes, types (bytes), BTPAddress.fromString | M_TbshBytes | C92 |
| javascore/fee-aggregation FeeAggregationSCORE, Syndication, Token | M_Fee | C93 |
| common/link/link.go, chain/icon/btp2, chain/icon/bridge, chain/ethbr: accesses to the lists of received blocks | M_Race | C94 |
| chain/icon/btp2/btp2.go, message.go: receiver (monitor, updates, proofs, status) | M_Btp2 | C95 |
| chain/icon/bridge, chain/ethbr receivers as run by the link | M_Brl | C96 |
| pyscore/lib/icon/rlp.py, base64.py | M_PyRlp | C97 |
| pyscore/lib/icon/mta.py | M_PyMta | C98 |
| pyscore/lib/icon/mpt.py | M_PyMpt | C99 |
| pyscore/lib/icon/db.py | M_PyDb | C100 |
| pyscore/bmv/icon/icon.py, message.py; pyscore/lib/btp_address.py | M_PyBmv | C101 |
| pyscore/bmc/bmc.py (without queries), message.py, route.py | M_PyBmc | C102 |
| pyscore/bmc/link.py, relay.py, relayer.py (without counters) | M_PyLink | C103 |
| pyscore/bmc/permission.py and lines 73-176 of bmc.py | M_PyPerm | C104 |
| pyscore/token/token_bsh.py | M_PyToken | C105 |
| pyscore/token/token_bsh.py, two contracts and the messages between them | M_PyPair | C106 |
| pyscore/token/sample/irc2/irc2_token.py, with token_bsh.py and contracts that call back | M_PyIrc2 | C107 |
| javascore/fee-aggregation/SampleMultiToken token/irc31_basic.py, token/irc31_mintburn.py | M_Irc31 | C108 |
| javascore/fee-aggregation/SampleMultiToken util/rlp.py | M_Irc31 | C109 |
| javascore/fee-aggregation/CPFTreasury cpf_treasury.py | M_CpfTreasury | C110 |
| e2edemo dapp-sample DAppProxySample.java, RollbackData.java, solidity dapp-sample DAppProxySample.sol | M_DappSample | C111 |
| solidity libraries Strings.sol, score-util StringUtil.java | M_TextUtil | C112 |
| fee-aggregation bandProtocol std_reference_basic.py | M_RefData | C113 |

Not modelled: real elliptic-curve arithmetic, AES, scrypt, Keccak; JSON text syntax; TCP and websocket behaviour,
reconnection; LevelDB/Badger internals and I/O errors; wall-clock time and waiting; memory exhaustion; interleavings inside
a link handler (handlers run to their end in M_Link.v; only the accesses to lists of received blocks are interleaved, M_Race.v); command line parsing and the other programs under cmd/, log forwarders and
rotation; custom `RLPEncodeSelf` codecs; the contracts under pyscore
other than lib/icon/rlp.py, base64.py, mta.py, mpt.py and db.py, lib/btp_address.py, bmv/icon, bmc and token (there not the queries); debug-bsh; and test code.

## Properties whose statement was corrected

Where the first wording was false of the code the property says what does hold, and the difference is a theorem ending in
`_refuted`.  MANIFEST.json's notes give the original wording: C36, C37, C38, C39, C42, C45, C55, C57, C60,
C61, C62, C63, C64, C65, C66, C67, C68, C70, C72, C73, C74, C75, C77, C79, C80, C81, C82, C83, C84, C85, C86, C87, C88, C89, C90, C91, C92, C93, C94, C95, C96, C97, C98, C99, C100, C101, C102, C103, C104, C105, C106, C107, C109, C111, C112, C113.  C19 is
still stated in full and is partial: it is false for eight leaves and more (`C19_add_equals_build_refuted`), proved up to seven.

## Findings

Behaviour of the code that contradicts its evident intention.  The theorem is named where there is one.

Numbers and texts: `C04_*_refuted` unprefixed digits are decimal or hex depending on whether decimal parses;
`C05_client_hexbytes_total_refuted`, `C06_*_refuted` client types crash on short text and accept over-long text.

Codec: `C09_only_canonical_accepted_refuted` non-canonical encodings are read; `C10_*_refuted` pointers to nilable types do not
round trip, narrowing is silent; `C13_list_truncation_refuted` a cut list is read as a short one;
`C14_skip_huge_size_refuted` skipping and reading disagree on huge sizes.

Merkle trees: `C17_zero_sized_node_forgery_refuted` sizes of proof nodes are not checked; `C17_evaluation_total_refuted` crash;
`C19_add_equals_build_refuted` growing and building differ from eight leaves on.

Accumulator: `C21_negative_index_refuted`, `C22_new_witness_verifies_old_refuted`, `C23_overlong_hash_refuted`,
`C26_verify_newer_refuted`.  Without a theorem: adding an empty hash overwrites a slot; Recover drops roots whose length is
neither 0 nor 32.

Trie, database: `C27_leaf_inside_refuted`, `C27_*_panics_refuted`; `C28_empty_key_flush_refuted`, `C28_level_aliases_refuted`;
`C29_prefix_ids_refuted` the empty bucket id of the trie shares keys with every other bucket.

Errors and results: `C30_nil_panics_refuted`; `C31_eth_negative_code_refuted`, `C31_family_names_refuted`,
`C31_hostile_answer_panics_refuted`, `C31_uncoded_failure_silent_refuted`; `C32_completed_message_replays_refuted`;
`C34_distinct_signed_alike_refuted`.

Link: `C35_two_updates_refuted` two ready block updates crash it; `C35_over_limit_refuted` crash or endless loop above the size limit;
`C35_check_never_ends_refuted`, `C35_check_does_not_advance_refuted`; `C36_one_record_per_status_refuted`,
`C36_shared_status_refuted`; `C37_first_result_is_last_refuted` self-deadlock (`defer Lock`); `C37_old_witness_lost_refuted`.

Receivers: `C38_mid_block_refuted`, `C38_early_proof_above_limit_refuted`, `C39_bridge_skips_refuted`,
`C39_bridge_empty_block_refuted`, `C39_eth_batch_refuted`, `C40_bad_log_refuted`, `C41_gap_lost_refuted`, `C41_below_requested_refuted`.

Keys: `C42_parse_vrs_refuted` always crashes; `C43_bad_iv_refuted`; `C43_evm_wallet_not_stored_refuted`;
`C44_evm_not_secret_refuted` the shared secret is nil; `C44_stream_reuse_refuted`; `C44_uncompressed_recipient_refuted`.

Log and options: `C45_file_ignores_level_refuted`, `C45_module_type_refuted`, `C46_comma_refuted`, `C46_empty_key_refuted`.

Sending: `C51_duplicate_loses_hash_refuted`, `C51_no_limit_refuted`, `C51_odd_answers_refuted`, `C51_pool_sub_code_refuted`.

Java verifier: `C48_negative_sizes_forgery_refuted`, `C49_height_committed_refuted`, `C49_long_network_path_refuted`,
`C50_sequence_offset_refuted`, `C50_late_start_refuted`, `C50_second_proof_same_message_refuted`.

Wire format: `C59_relay_reads_shared_type_refuted` the relay cannot read headers whose path to the sections' root is not empty.

Solidity RLP: `C60_byte_0x80_refuted` the one-byte string 0x80 is written as the empty string; `C60_int_minus_128_refuted` so is the number -128, and reading it back reverts; `C60_reads_within_bounds_refuted` malformed lists are read beyond the end of the message.

Addresses: `C61_other_protocols_refuted` the Java class takes any protocol; `C61_account_with_slash_refuted` the relay cuts an account at a slash.

Bridge: `C62_java_several_messages_refuted` the Java bridge verifier writes every message into the first element of the array it
returns; `C62_java_any_receiver` it does not look at the receiver; `C63_eth_to_java_refuted`, `C63_eth_link_stops_refuted` numbers written by the
Ethereum relay are read as two's complement, so that the link stops at message 128; `C63_first_proof_only_refuted`.

Solidity BTP verifier: `C64_zero_sized_node_refuted` nodes for no leaf are taken, so a message never sent can be delivered;
`C65_missing_signature_refuted` one validator that did not sign, early in the list, blocks an update that has its quorum;
`C65_validators_not_committed_refuted` a relay can replace the new validators at will; `C66_proof_again_refuted` a proof can be used
twice, at the cost of another message; `C66_address_split` an account of one character is read as empty.

Call service: `C67_rollback_cancelled_refuted` a later success cancels a rollback already announced; `C67_response_from_anywhere_refuted`
responses are taken from any network; `C67_empty_rollback_refuted` empty rollback data counts in Java only;
`C68_empty_sender_stuck_refuted`, `C68_big_number_stuck_refuted` requests that can never be executed nor answered;
`C69_excess_to_bmc_refuted`; `C70_leading_zero_refuted`, `C70_byte_0x80_refuted` Solidity writes some messages differently;
`C71_long_error_code_refuted` an error with a long code cannot be delivered.

Relay program: `C72_save_moves_refuted`, `C72_save_option_moves_refuted` saving a configuration that was read from another directory
moves its relative paths; `C72_save_log_refuted` without a log file the saved configuration logs to a directory; `C72_same_name_refuted`,
`C72_relative_file_refuted`; `C73_early_error_lost_refuted` the program waits for ever if its link fails before it waits;
`C73_receiver_error_lost_refuted` errors of starting a receiver are never looked at; `C73_sender_options_refuted` options go to the wrong side;
`C74_unreadable_secret_refuted` a new key is saved under the empty password; `C74_no_key_store_file_refuted`.

MessagePack: `C75_narrowing_detected_refuted` numbers are cut to the width of the field; `C75_four_gigabytes_refuted` longer bytes get a cut
length; `C75_kinds_told_apart_refuted` strings are read as bytes; `C75_extension_refuted` an extension header before a map is passed over.

Message center for the EVM: `C77_unreadable_message_blocks_refuted`, `C77_unnumbered_request_blocks_refuted`,
`C77_service_without_code_blocks_refuted`, `C77_large_number_blocks_refuted` messages that stop a link until an owner drops them; `C79_coins_stuck_refuted` coins that are owed to nobody and cannot be got back.
`C80_neighbour_unroutes_refuted`, `C80_owner_route_kept_refuted`, `C80_removal_keeps_others_refuted`, `C80_route_taken_back_refuted` routes in use that vanish; `C80_new_link_used_refuted`, `C80_links_once_refuted` links that are not used and listed twice;
`C80_announced_by_its_link_refuted`, `C80_next_is_link_refuted` announcements in another's name; `C80_can_remove_refuted` links that cannot be removed.
`C81_asked_network_settles_refuted`, `C81_reward_back_once_refused_refuted` answers to claims from networks that were not asked; `C81_own_name_reserved_refuted` forged internal messages; `C81_handler_keeps_reward_refuted` a reward its owner cannot claim.
`C82_number_128_refuted`, `C82_reply_to_128_refuted`, `C82_unreadable_stops_link_refuted` the answer to message 128 cannot be read and stops its link; `C82_byte_0x80_refuted` a payload lost;
`C82_wide_numbers_not_forwarded`, `C82_long_code_refuted`, `C82_leading_zero_refuted` numbers and lengths the two sides treat differently.
`C83_height_checked_refuted` a height not checked; `C83_limited_go_witness_refuted` witnesses refused after pruning; `C83_ensureRoots_ends_refuted`, `C83_ensureRoots_keeps_refuted`,
`C83_ensureCache_keeps_newest_refuted` changing the sizes of an accumulator breaks it (no caller in the repository does).
`C84_only_keys_of_tree_refuted` prefixes of keys accepted; `C84_failures_reported_refuted` failures that are no MPTException; `C84_contained_unprovable` small nodes cannot be proved.
`C85_messages_lost_refuted` two or more messages of one call to the ICON block verifier: all but the last are null.
`C86_longer_result_refuted`, `C86_null_extension_refuted` headers of ICON whose result has a fifth element are hashed without it; those with a null fourth element are refused.
`C87_link_added_again_refuted`, `C87_wrong_drop_refuted` removing a link and adding it again resets its numbers, so that messages are delivered twice if the verifier still knows them; dropMessage believes the numbers the owner gives, so that a request can be answered twice.
`C88_native_kept_refuted`, `C88_request_in_full_refuted`, `C88_asked_network_answers_refuted` requests of any network are paid from coins others have locked, so that a refund may be impossible; a request naming the native coin twice pays the last amount only and is answered OK; any network may answer a transfer; fees cannot be taken out (part of C88_who).
`C89_answer_turned_back_refuted`, `C89_named_twice_refuted` an answer travels under the number of the asker as a message of its own; if it is turned back the error ends the responder's own transfer of that number, which is given back although it is carried out; coins named twice in a batch are left without a claim.
`C90_one_form_refuted` messages with extra items inside a list are read as without them (by the platform's reader).
`C91_anybody_writes_refuted` setBalance is external and checks nobody: anybody can write themselves a balance and transfer it. `C91_negative_refuted` transfer takes a negative amount and makes balance of it. `C91_error_refused_refuted` handleBTPError parses the receiver as an address of this chain, so transfers to other chains cannot be undone by an error; `C91_error_keeps_fee_refuted` if it can, the fee stays locked. `C91_fees_lost_refuted` gathered fees are lost on an error or a code other than 1, and can be returned twice. `C91_second_asset_refuted` only the first asset of a request is paid, though the answer is OK. `C91_share_refuted` the fee numerator is not bounded. `C91_owner_count_refuted` removing somebody who is no owner lowers the count. `C91_unknown_ignored_refuted` the answer "unknown" leaves a transfer open.
`C92_address_refuted` BTPAddress.fromString of the token service refuses networks without a dot (an exception of substring) and takes the last slash as the end of the network.
`C93_zero_deposits_refuted` a deposit of 0 ICX lists its depositor anew each time, so they get several shares, more than there are tokens. `C93_refunds_refuted` endAuction sends all ICX to the fund and still books refunds: a withdrawal then pays nothing. `C93_withdrawal_refuted` a refund paid from another syndication's ICX makes ending that syndication fail. `C93_stuck_refuted` a syndication with no ICX and tokens worth 0 divides by zero whenever somebody tries to end it. `C93_duration_refuted` only a duration of 0 is refused, not a negative one. `C93_twice_refuted` one token can be registered under two names and is then sold twice.
`C94_lost_refuted` l.rss and the rss of the receivers are appended to and cut by different goroutines without a lock: an append between read and write of a cut loses a block nobody acknowledged; `C94_unproved_refuted` the link then sends the block without its messages, `C94_block_skipped_refuted` the receiver goes on with the block after it.
`C95_two_blocks_refuted` fetching a block while the one before is taken but not handled crashes the relay (index out of range in link.go); `C95_not_resent_refuted` errors of Relay are ignored, so a lost relay message is never resent and every later one is refused; `C95_inside_a_block_refuted` a relay started inside a block gets nothing through; `C95_failed_fetch_refuted` a failed fetch of messages skips the block for good; `C95_nil_status_refuted` a missing status crashes the link; `C95_from_zero_refuted` with height 0 the receiver follows nothing and says nothing.
`C96_icon_crowded_block_refuted` from ICON only the last message of a block is sent, so after a block with several messages nothing arrives any more; `C96_icon_empty_block_refuted` a notified block without messages crashes the relay; `C96_icon_two_blocks_refuted` so do two blocks that arrive while the link is busy; `C96_icon_restart_refuted` a restarted relay is told of the last block again and turns in a loop without pause; `C96_eth_to_java_refuted` to a Java destination only messages up to number 127 arrive; `C96_eth_two_messages_refuted` two messages in one EVM block crash the relay; `C96_eth_bad_log_refuted` so does one log that does not unpack.
`C97_long_payload_refuted` rlp.py writes the bytes of a length of 65536 or more in disorder, so that such payloads are refused by every reader; `C97_one_encoding_refuted` [129; b] and [184; 1; b] are read like [b]; `C97_nested_dict_refuted` a type that has a dict in a dict is spent by the first element; `C97_absent_object_refuted` the nil marker is refused where an object or list of objects is expected; `C97_one_text_refuted` "QQ==" and "QR==" are read as the same byte.
`C98_newer_witness_refuted` mta.py checks a witness for a later height with the height as the place in the tree, so that the height's entry is refused; `C98_newer_root_refuted` a witness that is too short is accepted there, so that a root is taken for the hash of a block; `C98_height_checked_refuted` the height beside a witness is not checked; `C98_roots_size_refuted` a smaller number of roots drops the newest and takes the others for smaller trees; `C98_large_store_refuted` an accumulator stored in 65536 bytes or more cannot be read back (`C98_ex_large`: a cache of 2000 hashes).
`C99_branch_value_refuted` mpt.py gives the value of a branch with its RLP header; `C99_only_keys_of_tree_refuted` proper prefixes of keys are accepted, as by the Java verifier; `C99_contained_in_extension` no proof leads through an extension that contains its child; `C99_nil_value_refuted` a leaf with the nil marker gives None.
`C100_removed_again_refuted` IterableDictDB.remove of a key put in by the same call only forgets the mark: the key and its value stay; `C100_short_key_lost_refuted` _load_keys reads a string of keys only if it is longer than 1, so a single one-character key is lost; `C100_remove_all_refuted` remove_all changes the list it loops over and leaves every second key (half of the relays of a removed link); `C100_bool_refuted` a bool comes back as an int; `C100_unset_comes_back_refuted` a property set to None has its default again in the next call.
`C101_other_center_refuted` the Python block verifier compares the number of a message before looking for which center it is, so that a message of the same contract for another center with another number fails the call (the Java one passes it over); `C101_repeated_validators_refuted` validators named twice count twice for two thirds, but vote once; `C101_absent_validators_refuted` a changed validator hash without validators is an AttributeError; `C101_no_parameters_refuted` an event without parameters, as Paused(), raises when read; `C101_logs_in_receipt_refuted` event logs in the receipt itself are read but never used.
`C102_stuck_refuted` `C102_poison_refuted` a message that cannot be taken (service name '_event' with other bytes, no destination, no number, an error without its fields) raises outside the try of handleRelayMessage: its relay message is undone and the link stands still for good, and sendMessage lets anyone (access control is off by default) write it; `C102_wrong_center_refuted` sendMessage addresses messages for a network behind a neighbour to the neighbour itself, which calls its own service with them; `C102_answered_error_refuted` an error that cannot be passed on is answered with a positive number, which the sender's service takes for a message; `C102_plain_route_refuted` addRoute with a plain network, the form resolve looks up first, makes every other search raise IndexError; `C102_route_nowhere_refuted` a route to an address that is not linked raises AttributeError, which undoes the relay message; `C102_told_text_refuted` a reported text that is no address stops the search for networks not linked; `C102_told_for_another_refuted` events are not compared with the link they come over; `C102_two_links_refuted` two links into one network are allowed, the second is never used; `C102_lost_refuted` messages that are not read are counted and lost; `C102_service_stops_refuted` an exception of a service other than BTPException undoes the whole relay message.
`C103_anyone_refuted` addRelayer checks nobody, so anyone makes themself a relayer and any address a relay of every link; `C103_remove_refuted` `C103_stays_refuted` removeRelay calls remove_relay of the relayer without its second argument and always fails, so a relay can never be removed, and relays of removed relayers keep relaying; `C103_choice_refuted` with messages the relay allowed depends on the height the relay message claims: each of three relays may be allowed at the same block; `C103_term_refuted` the term is a block longer than asked for some exact quotients (10 messages at 6.1 s: 62); `C103_no_relays_refuted` a link with an interval and no relay raises on each relay message; `C103_no_cancel_refuted` `C103_no_withdraw_refuted` the branches of add_relay and remove_relay that take back pending changes are never reached.
`C104_dead_refuted` `C104_service_again_refuted` taking the last permission stores an empty text, which is read as None: every later call for this address raises AttributeError, so a service that was removed cannot be registered at its address again, under any name and with or without access control; `C104_ungrantable_refuted` setLink and nextRelays ask for permissions that are not in the list of permissions: with access control on nobody can call them; `C104_twice_refuted` a permission listed twice in its first grant survives a removal; `C104_locked_refuted` with access control switched on before anyone may grant, not even the owner gets a permission until it is switched off.
`C105_unregister_refuted` unregister only takes the name off the list: transfers, reclaims and requests go on, deposits are refused and the name cannot be registered again; `C105_any_network_settles_refuted` the answer to a transfer is taken from whatever network; `C105_negative_request_refuted` `C105_deposits_taken_refuted` the value of a request is not checked: below zero it takes from any account, above it gives a claim on the deposits of others; `C105_endless_exchange_refuted` the answer to a message of unknown type is of unknown type too: two of these contracts answer each other for ever; `C105_unreadable_request_refuted` anybody can have a transfer of 0 sent to a text that is no address, at which the other contract raises and its link stops (C102_service_stops_refuted); `C105_empty_name_refuted` a token registered under the empty name takes no deposits.
`C106_covered_there_refuted` a transfer gives a claim on the token held by the other contract, where nothing came in to pay for it; `C106_third_network_refuted` a transfer to a network that does not answer stays locked, nothing in the contract ends it.
`C107_paid_refuted` after a request of another network the service lets a user reclaim what the token refuses to pay; `C107_not_taken_refuted` a contract without tokenFallback can deposit and never reclaim; `C107_minted_refuted` tokens given to the service by on_install are never paid out.
`C109_large_refuted` int(x / 256) divides doubles: from 2^53 on the ids and values in batch events are wrong, and different ones are written alike; `C109_negative_refuted`, `C109_events_refuted` ids below zero can be minted and look in batch events like others; `C109_overflow_refuted` very large values cannot be sent in a batch.
`C110_budget_below_zero_refuted` more can be sent back for a proposal than was sent and its budget is then below zero; `C110_disqualified_refuted` a disqualified proposal can be paid again; `C110_payable` with a limit below zero no call that brings coins succeeds; `C110_anyone_burns` after the limit is lowered anybody can have the rest burned with a payment of nothing.
`C111_unknown_refuted` the Solidity sample takes empty rollback data under ids that were never given out, with number 0 (the Java sample refuses it); `C111_one_way` empty rollback data is a two-way message in Java and a one-way message in Solidity.
`C112_split_short_refuted`, `C112_split_tiny_refuted` Strings.split loses a last part of one character and panics on the empty text; `C112_hex_garbage_refuted` StringUtil.hexToBytes reads characters that are no hexadecimal digits; `C112_camel_refuted` StringUtil.toLowerCamelCase gives the camel case.
`C113_older_refuted` the price feed replaces a newer rate by an older one; `C113_usd_event_refuted` it takes and tells updates of USD that are never used; `C113_rate` a rate of 0 makes every query with that quote fail.

EVM receiver: `C39_eth_small_limit_refuted`.

Message center: `C54_unparsable_blocks_refuted`, `C55_service_code_misreported_refuted`, `C55_type_of_code_refuted`,
`C56_no_fee_record_refuted`, `C57_collected_twice_refuted`, `C57_dropped_fees_lost_refuted`, `C57_claim_credited_twice_refuted`,
`C58_removed_link_keeps_relays_refuted`, `C58_any_network_settles_refuted`, `C58_own_messages_not_droppable_refuted`,
`C58_old_network_id_kept_refuted`.

## Testing the theorems

`seeded/LOG.jsonl` has one line per wrong program tried: the definition edited, the edit, the claim it breaks, the theorems that
failed and those that were tightened because they did not.  `tools/mutate.py` applies the edits in a scratch copy.  A theorem counts as failed
when its own proof or that of a lemma it rests on breaks.
