#!/usr/bin/env python3
"""Writes /verif/properties.jsonl.  One P(...) call per property, in id order."""
import json, os
rows = []
def P(title, statement, quantifier, why, *anchors):
    rows.append(dict(id="C%02d" % (len(rows) + 1), title=title, statement=statement,
                     quantifier=quantifier, why_tests_cant=why, anchors=list(anchors)))

P("Signed big-integer byte codec is lossless",
  "Encoding any integer with the big-integer byte encoder and decoding the bytes gives the integer back; different integers never share an encoding; and the bytes produced are exactly the shortest two's-complement big-endian representation.",
  "every integer (unbounded magnitude, both signs)",
  "The domain is infinite and the sign/length boundary cases (multiples of 2^7, 2^8...) recur at every size.",
  "common/intconv/bytes.go: BigIntToBytes, BigIntSetBytes")
P("Fixed-width integer byte codecs agree with the big-integer codec",
  "For every int64 and uint64 value, the 64-bit encoders output exactly the same bytes as the big-integer encoder, and the 64-bit decoders give the value back.",
  "every int64, every uint64, every size below 2^64",
  "2^64 values; loop termination conditions depend on sign bits at each byte boundary.",
  "common/intconv/bytes.go: Int64ToBytes, BytesToInt64, Uint64ToBytes, BytesToUint64, SizeToBytes, BytesToSize")
P("Hexadecimal integer text is lossless",
  "Formatting an integer as hex text and parsing that text gives the same integer, for unbounded integers and for int64/uint64; formatted text has no superfluous leading zero.",
  "every integer, every int64 and uint64",
  "Unbounded domain; odd/even nibble counts and negative signs interact.",
  "common/intconv/string.go: FormatBigInt, ParseBigInt, FormatInt, ParseInt, FormatUint, ParseUint", "common/hexint.go: HexInt")
P("Parsed fixed-width integers never exceed the declared width",
  "Whatever text is given, a successful parse with a declared bit width yields a value representable in that many bits, and text denoting a number outside the range is rejected rather than wrapped.",
  "every byte string as text and every width from 1 to 64",
  "Adversarial text from RPC peers: unbounded set of strings; two parsers (decimal/prefixed, then bare hex) are chained.",
  "common/intconv/string.go: ParseInt, ParseUint, decodeHexNumber")
P("Hex byte strings are lossless and distinguish nil from empty where documented",
  "Formatting a byte string as hex text and parsing it gives back the same bytes for each of the hex byte types.",
  "every byte string",
  "Unbounded lengths and all byte values.",
  "common/hexbytes.go: RawHexBytes, HexBytes, HexPre", "chain/icon/client/type.go: HexBytes, NewHexBytes")
P("ICON address text and binary forms are lossless",
  "Printing an address and parsing the text, or taking its bytes and setting them on a fresh address, gives the same address; distinct addresses have distinct text.",
  "every 21-byte address with a valid type byte",
  "2^161 addresses; prefix/odd-length handling and fixed array copying.",
  "common/address.go: Address.String, SetString, SetBytes, Bytes, Equal, SetTypeAndID", "chain/icon/client/type.go: Address.Value, NewAddress")
P("BTP address decomposition inverts composition",
  "Building btp://<nid>.<chain>/<account> from well-formed parts and asking for protocol, network address, network id, blockchain and account returns exactly these parts; validation accepts exactly the supported ones.",
  "every protocol, network id, chain and account free of the separators",
  "Unbounded strings; correctness depends on separators not occurring in the parts.",
  "common/types/btpaddress.go: BtpAddress, ValidateBtpAddress")
P("RLP stream decoding inverts encoding",
  "Any tree of byte strings, nil markers and lists, once encoded, is decoded from the front of a longer stream to the same tree with exactly the appended bytes left over.",
  "every finite tree with payload lengths below 2^63, followed by any bytes",
  "Nested size headers of all lengths; infinite set of trees and continuations.",
  "common/codec/rlp.go: rlpReader, rlpWriter", "common/codec/bytes.go: MarshalToBytes, UnmarshalFromBytes")
P("RLP encoding is injective and prefix-free",
  "Two different trees never encode to byte strings one of which is a prefix of the other.",
  "every pair of finite trees",
  "Quantifies over all pairs of messages; hashes of encodings identify messages only if this holds.",
  "common/codec/rlp.go: writeBytes, writeList, writeNull")
P("Typed values survive a codec round trip",
  "Marshalling a Go value of any supported type (bool, signed/unsigned integers, strings, byte slices, pointers, slices, arrays, structs, maps) and unmarshalling into a fresh variable of that type restores the value.",
  "every type built from the supported kinds and every value of it",
  "Types and values are inductively generated; nesting and nil-ness interact.",
  "common/codec/codec.go: encodeValue, decodeValue, encoderImpl, decoderImpl")
P("RLP distinguishes nil from empty",
  "A nil byte slice, an empty byte slice, a nil list and an empty list are kept distinct from non-nil values after a round trip.",
  "every byte slice and list, including nil",
  "Relies on the reserved header never being produced by any other value.",
  "common/codec/rlp.go: WriteNull, readList, readBytes")
P("Map encoding does not depend on iteration order",
  "Marshalling a map yields the same bytes however the runtime enumerates its entries, with keys in increasing order.",
  "every finite map and every enumeration order",
  "Go map iteration order is randomised: n! schedules.",
  "common/codec/codec.go: encodeValue")
P("Truncated RLP scalar encodings are rejected",
  "Removing any non-empty suffix from the encoding of a byte string or integer makes decoding fail; whether this extends to lists is stated separately.",
  "every value and every truncation point",
  "Every cut position of every encoding.",
  "common/codec/rlp.go: readBytes, readList, readAll")
P("Skipping and raw reading consume exactly one item",
  "Skipping an item, or reading it raw, leaves the stream exactly after the item; the raw bytes re-decode to the same item.",
  "every item followed by any bytes",
  "All items, all continuations.",
  "common/codec/rlp.go: skipOne, ReadRaw, Skip")
P("Merkle binary tree root is the canonical balanced root",
  "The root of a tree built from a list of leaves is the hash of the recursive split at the largest power of two strictly below the length, and does not depend on anything else.",
  "every non-empty list of leaf contents and every hash function",
  "All list lengths; the code builds with level bookkeeping instead of recursion on length.",
  "common/mbt/tree.go: NewMerkleBinaryTree, add, lazyAdd, ensureHash, Root")
P("Merkle range proofs verify",
  "For a tree of n leaves and any range 1<=begin<=end<=n, the proof returned for the range evaluates to the tree's root and carries exactly the contents of the range.",
  "every leaf list, every range, every hash function",
  "O(n^2) ranges for every n.",
  "common/mbt/proof.go: Proof, ProofOfAll, MerkleBinaryTreeProof.Root")
P("Merkle range proofs cannot lie",
  "If a proof with the declared total evaluates to the root of a genuine tree, its contents are the genuine leaves at the claimed positions, or a hash collision is exhibited.",
  "every proof object (adversarial), every tree and every hash function",
  "The adversary chooses the proof: unbounded search space.",
  "common/mbt/proof.go: MerkleBinaryTreeProof.Root, node.verify")
P("Merkle paths verify and cannot lie",
  "The path of every leaf evaluates to the root from that leaf; any other leaf content evaluating to the root along the same path yields a hash collision.",
  "every tree, every leaf index, every alternative content",
  "All indexes of all trees and adversarial contents.",
  "common/mbt/path.go: Path, MerkleBinaryTreePath.Root, RootByMerkleNode")
P("Growing a Merkle tree one leaf at a time equals building it at once",
  "Adding leaves one by one gives the same root as building from the whole list.",
  "every list of leaves",
  "Divergence may first appear at large sizes.",
  "common/mbt/tree.go: Add, NewMerkleBinaryTree")
P("Accumulator roots are the binary decomposition of its length",
  "After any sequence of hashes is added, slot i of the accumulator is empty iff bit i of the length is zero, and otherwise holds the perfect-tree root of the corresponding consecutive block of entries.",
  "every sequence of additions, every hash function",
  "Unbounded histories.",
  "common/mta/accumulator.go: AddHash, AddData, addNode")
P("Every accumulator witness verifies",
  "For every stored index the witness returned verifies against the accumulator for exactly that index's hash.",
  "every history, every index below the length",
  "All (length,index) pairs.",
  "common/mta/accumulator.go: WitnessFor, Verify")
P("A witness for an older accumulator length can be produced and verified",
  "A witness cut for an older length verifies against the accumulator of that length, and verification with an older witness against a newer accumulator succeeds for genuine entries.",
  "every history and every pair of lengths",
  "Pairs of lengths x indexes; a relay and a verifier contract are rarely at the same length.",
  "common/mta/accumulator.go: WitnessForWithAccLength, VerifyWithAccLength, GetDepthByHeightAndAccLength")
P("Accumulator verification cannot be fooled",
  "If verification accepts a hash at an index, the hash is the one added at that index, or a hash collision is exhibited.",
  "every history, every adversarial witness, index and hash",
  "Adversarial witnesses.",
  "common/mta/accumulator.go: Verify, VerifyWithAccLength")
P("Accumulator persistence survives restarts and crashes",
  "After a flush, recovering from the same store gives an accumulator with the same length and roots that answers every witness query identically; a crash at any write before the final state record leaves the previously flushed state recoverable.",
  "every history of additions, flushes and crash points",
  "Every crash point between individual key writes.",
  "common/mta/accumulator.go: Flush, Recover, hashNode.resolve")
P("Witness list conversion preserves verification",
  "Converting a witness to plain hashes and back for an index gives the original witness, and the height recovered from a witness is the index it was made for.",
  "every length and index",
  "All indexes; direction bits are recomputed from the index.",
  "common/mta/accumulator.go: WitnessesToHashes, HashesToWitness, GetHeightFromWitness")
P("Offset accumulator behaves as a plain accumulator shifted by its offset",
  "Heights, witnesses, nodes and verification of the offset accumulator are those of a plain accumulator at index height-1-offset; recovery with a different offset fails.",
  "every offset, history and height",
  "Unbounded histories and offsets.",
  "common/mta/extaccumulator.go: ExtAccumulator")
P("Patricia proof verification accepts only linked nodes",
  "If proof construction accepts a sequence of encoded nodes, every node that is not a leaf refers to the hash of the node after it; the value returned is the one in the final leaf; and the root hash with the references followed determines every node, unless the hash function collides. Whether a leaf may occur before the end, and whether cut-off proofs are refused, is stated separately.",
  "every sequence of proof byte strings and every hash function",
  "Adversarial proofs.",
  "common/mpt/mpt.go: NewMptProof, MptNode.RLPDecodeSelf, MptProof.Leaf")
P("Layered database behaves as an overlay",
  "Reads through a layer see its own writes and deletions and otherwise the base; the base is untouched until a write flush, after which it equals the overlay view; discarding leaves it untouched.",
  "every sequence of operations over all keys",
  "Unbounded operation histories with tombstones.",
  "common/db/layer_db.go: layerBucket, layerDB")
P("Buckets of a key-value store are isolated",
  "A write in one bucket is never visible in another bucket of the same database.",
  "every pair of bucket ids and every key",
  "Depends on key concatenation being injective over all ids and keys.",
  "common/db/bucket.go: internalKey, BucketID", "common/db/go_level_db.go", "common/db/badger_db.go")
P("Error codes survive wrapping",
  "The code reported for an error chain is that of the outermost coded error in it, however many uncoded wraps surround it, and identity checks find any error in the chain.",
  "every finite chain of wraps",
  "Chains of arbitrary depth and mixture.",
  "common/errors/errors.go: CodeOf, CoderOf, AsValue, Is, Wrap, Wrapc, WithCode")
P("A failed transaction is never reported as success",
  "Whatever result a chain returns, the relay reports success only if the transaction succeeded; the revert code it reports is the one in the result.",
  "every transaction result and error value",
  "All status/failure codes returned by the node.",
  "chain/icon/sender.go: mapErrorWithTransactionResult, GetResult", "chain/icon/client/error.go: NewRevertError", "chain/icon/client/client.go: MapError")
P("Fragmented relay messages are reassembled exactly",
  "Splitting a relay message into fragments and feeding them in order to the BMC's fragment handler hands exactly the original message to the relay handler, once, after the last fragment.",
  "every message (any length) and every size limit",
  "All lengths including exact multiples of the limit.",
  "chain/icon/sender.go: _relay, sendFragment", "javascore/bmc: handleFragment")
P("Transaction serialization for signing is deterministic",
  "The byte string that is signed depends only on the set of included fields and values, not on map iteration order; excluded fields do not influence it.",
  "every JSON object and every enumeration order",
  "n! iteration orders, recursive values.",
  "chain/icon/client/serialize.go: SerializeMap, SerializeJSON")
P("Transaction serialization is unambiguous",
  "Two transactions (trees of strings, numbers, lists, dictionaries and null) have the same signed bytes exactly when they agree up to the signature field, the order of dictionary entries, empty strings at the head of lists, and the type of decimal numbers; without numbers and such lists, different transactions have different bytes.",
  "every pair of values",
  "All pairs of values; escaping must separate data from structure.",
  "chain/icon/client/serialize.go: serializeString, serializeList, serializeDict")
P("Relay messages are built in source order without gaps",
  "With a receiver that answers honestly, the items handed to the sender move the destination's status step by step, so message proofs cover consecutive sequence ranges starting right after the received sequence; exactly described are the situations in which the link instead crashes, spins or repeats a range.",
  "every schedule of receive notifications, statuses and size limits",
  "Concurrent notifications and batching; unbounded traces.",
  "common/link/link.go: BuildRelayMessage, buildProof, appendRelayMessage")
P("Status reports never discard unacknowledged relay data",
  "A status cuts each queue behind the first record it acknowledges: with records in order nothing unacknowledged is lost, and at most one acknowledged record is discarded per status; relay messages are judged by the status object they share.",
  "every queue content and status",
  "Queues of any length.",
  "common/link/link.go: clearRelayMessage, clearReceiveStatus, removeRelayMessage")
P("Status reports are processed until the first relay result",
  "Every status that arrives before the first relay result is processed; the first relay result, whatever its code, ends the sender loop because its mutex is locked twice.",
  "every sequence of sender results",
  "A locking error shows only over a sequence of events.",
  "common/link/link.go: result")
P("BTP-block message proofs cover what they claim",
  "The records of the receiver cover the message numbers without gap. For a status inside a record, the proof built verifies against the block's message root and holds exactly the messages after the status' received sequence up to the first proof above the size limit; for a status at the start of a record the announced last sequence is that of the last message held. Inside a record the announced sequence is too high, and a proof that stops early exceeds the limit.",
  "every block content, link status and size limit",
  "All offsets and sizes.",
  "chain/icon/btp2/btp2.go: BuildMessageProof, GetReceiveHeightForSequence")
P("Bridge message proofs cover what they claim",
  "A bridge record keeps the events above the received sequence with consecutive numbers. With one new message in a block, the bridge and EVM proofs hold exactly that message and announce it; with several, the bridge proof holds only the last while announcing all, and the EVM receiver crashes.",
  "every block content, link status and size limit",
  "All offsets and sizes.",
  "chain/icon/bridge/bridge.go: newReceiveStatus, BuildMessageProof", "chain/ethbr/receiver.go: BuildMessageProof")
P("EVM event collection keeps exactly the new messages for the destination, in order",
  "For each block, the receipts kept contain exactly the logs with a sequence above the last one seen and the right destination, grouped by transaction in increasing index order and independent of map iteration order; with logs in block order the last sequence seen is that of the last kept log. A log that does not unpack crashes the receiver.",
  "every list of logs and every map enumeration order",
  "Randomised map iteration and arbitrary logs.",
  "chain/ethbr/receiver.go: Monitoring")
P("EVM block monitoring delivers every height once",
  "Starting from a requested height not above the head, polling delivers each height from the requested one on exactly once, in order, whatever fails in between; the subscription does so as long as heads come without gap. A gap between heads is never filled and a head below the requested height is delivered.",
  "every head sequence and requested height",
  "Races between the latest-block query and head subscription.",
  "chain/ethbr/client/client.go: MonitorBlock, Poll")
P("Signature byte formats are lossless",
  "Parsing a 64- or 65-byte signature and serializing it again returns the same bytes, the [V|R|S] layout holds the same three parts, other lengths are refused, and a signature made with a key recovers and verifies that key's public key. [V|R|S] strings cannot be parsed: the parser crashes on every 65-byte string.",
  "every byte string",
  "All inputs including wrong lengths.",
  "common/crypto/signature.go: ParseSignature, ParseSignatureVRS, SerializeRS, SerializeRSV, SerializeVRS")
P("Keystore encryption is lossless and detects a wrong password",
  "Decrypting a keystore with the password it was made with returns the key; with a password deriving another MAC key, or with a changed cipher text, it fails unless a hash collision occurs; every key returned has the address in the document. An initialization vector of wrong length crashes.",
  "every key, password, salt and IV, for abstract cipher/KDF/hash",
  "Cryptographic parameters cannot be enumerated.",
  "common/wallet/keystore.go: EncryptKeyAsKeyStore, DecryptKeyStore")
P("Encrypted values can be decrypted by the key owner",
  "A value encrypted to a compressed public key is recovered by the holder of the private key, when key agreement is symmetric. With an uncompressed recipient key the recipient derives another point unless the parities agree, and EVM wallets encrypt without a secret.",
  "every plaintext, key pair and salt, for abstract ECDH/KDF/stream cipher",
  "Cryptographic parameters cannot be enumerated.",
  "common/wallet/encrypted.go: NewEncrypted, Decrypt")
P("Log filtering honours configured levels",
  "A log line reaches the console exactly when its level is at least as severe as the level last configured for its module or the default; a forwarder is hooked to exactly the levels at least as severe as its own; level names are recognised in any case. The log file receives every line regardless of level.",
  "every level, module configuration and entry",
  "Product of levels and configurations.",
  "common/log/filter.go", "common/log/forwarder.go: HookLevels", "common/log/log.go: ParseLevel")
P("Connection option headers are lossless",
  "Options with distinct non-empty keys, formatted as a header value and parsed back, are the same set of options, in whatever order the map is ranged over. A comma in a value brings in further options.",
  "every option map whose keys and values are free of separators, and every enumeration order",
  "Arbitrary strings and map order.",
  "chain/icon/client/client.go: IconOptions.ToHeaderValue, NewIconOptionsByHeader")
P("Base64 message text is lossless and fits the transaction limit",
  "The base64 text a relay message is sent as decodes to the message and to no other message, and every fragment of it stays within the transaction size limit.",
  "every byte string and every size limit",
  "All lengths, paddings and fragment boundaries.",
  "chain/icon/sender.go: _relay, sendFragment, txSizeLimit", "javascore/bmc: BTPMessageCenter.handleRelayMessage, handleFragment")
P("On-chain message proofs cannot lie about content or position",
  "When the BTP block verifier contract accepts a message proof under a genuine Merkle root with the genuine message count, the messages are the genuine ones at the reported offset, or two inputs with equal hash are exhibited, for proofs whose nodes claim at least one leaf each; for these the contract computes what the relay's common/mbt computes, and accepts every range proof of the relay. With negative sizes it accepts a message at a wrong offset.",
  "every message list, range and claimed proof, for an arbitrary hash function",
  "Forged proofs are arbitrary data; the forgery with negative sizes needs a search no test performs.",
  "javascore/bmv/btpblock/src/main/java/foundation/icon/btp/bmv/btpblock/MessageProof.java: proveMessage", "javascore/bmv/btpblock/src/main/java/foundation/icon/btp/bmv/btpblock/Node.java: add, ensureHash, verify", "common/mbt/proof.go")
P("Block updates need signatures of more than two thirds of the validators",
  "The verifier contract accepts a block update only if more than two thirds of the validators in force, each counted once, signed the decision computed from it; two thirds, repeated or foreign signatures are refused; sufficient votes are accepted; the validators change only with the update flag and to the signed ones. The recorded height is bound modulo 2^64 only, and with more than two networks of a type genuine headers fail.",
  "every header, signature list and validator set, for abstract hash and signature recovery",
  "Sets of signers and validators are unbounded.",
  "javascore/bmv/btpblock/src/main/java/foundation/icon/btp/bmv/btpblock/BTPMessageVerifier.java: handleBlockUpdateMessage, verifyProof", "javascore/bmv/btpblock/src/main/java/foundation/icon/btp/bmv/btpblock/BlockHeader.java: getNetworkSectionsRoot")
P("Delivered messages are a prefix of the source chain's messages",
  "Whatever relay messages are submitted to the verifier contract, the messages it passes on are the first messages of the source chain in order, each once, if quorums sign genuine blocks only; the next genuine block and the relay's proofs are accepted; a relay message that delivered something is refused the second time. With a sequence offset, or a first block that does not start at message 0, nothing is ever delivered.",
  "every sequence of relay messages by an adversarial relay, every source chain, for an arbitrary hash function (or a collision is exhibited)",
  "Adversarial inputs and histories of unbounded length.",
  "javascore/bmv/btpblock/src/main/java/foundation/icon/btp/bmv/btpblock/BTPMessageVerifier.java: handleRelayMessage, handleBlockUpdateMessage, handleMessageProof, handleFirstBlockHeader")
P("Sending a transaction: retried, re-signed or reported as the node says",
  "The sender repeats a request only while the node reports a full pool (same transaction again) or an expired transaction (signed anew); the first other answer, or a failed signing, decides the outcome, and every other error is reported as its specified kind. A non-empty hash returned is the node's. The transactions of a relay message go out in order up to the first failure. A duplicate is reported as sent with the empty hash; answers with neither result nor error count as sent or end the program; a pool that stays full is retried without limit.",
  "every sequence of HTTP and JSON-RPC answers and every signer",
  "Unbounded answer sequences of a remote node, including malformed ones.",
  "chain/icon/sender.go: sendTransaction, _relay", "chain/icon/client/client.go: SendTransaction, SignTransaction, MapError, SendTransactionAndGetResult", "common/jsonrpc/client.go: Do")
P("The contract's enumerable dictionary is a dictionary",
  "After any sequence of puts, removals and clears, looking up a key gives the value last put and not removed, containsKey agrees, and the enumerations list every present key exactly once with its value.",
  "every sequence of operations, every key and value type",
  "Removal swaps the last entry into the gap; errors show only after particular sequences.",
  "javascore/bmc/src/main/java/foundation/icon/score/data/EnumerableDictDB.java")
P("Message sequence numbers of the message center",
  "Messages sent to a neighbour are numbered consecutively from one as long as the link exists, whatever else happens; the messages started on this network are numbered consecutively from one; the received number of a link grows by exactly the number of messages the verifier returned, or by one on a drop; a failed call changes nothing.",
  "every sequence of calls by anyone, for arbitrary verifiers, services and chain",
  "Histories of calls, re-entrant services and failing sub-calls are unbounded.",
  "javascore/bmc/src/main/java/foundation/icon/btp/bmc/BTPMessageCenter.java: sendMessage, sendInternal, handleRelayMessage, dropMessage, addLink, removeLink")
P("Every relayed message has exactly one fate",
  "A relay message is accepted only from a registered relay and a known link with a verifier; each message in it is, in order, delivered to its service, passed on unchanged to the neighbour that leads to its destination, answered with an error if it is a request, or dropped, with exactly one event each; delivered means that the registered contract was called with it and did not fail. An owner can drop the next message only under numbers that belong together. One message that cannot be parsed blocks the link.",
  "every state reachable by any calls, every relay message, for arbitrary verifiers, services and chain",
  "Failures inside services, of sends and of error answers combine in unboundedly many ways.",
  "javascore/bmc/src/main/java/foundation/icon/btp/bmc/BTPMessageCenter.java: handleRelayMessage, handleMessage, resolveNext, sendError, emitBTPEvent")
P("Error codes reported to senders",
  "A failed request is answered with the no-route code exactly if the message center found no route, with the no-service code exactly if it found no service, and otherwise with the revert code if the service failed, as long as the service's own revert code is neither 6 nor 11: these are reported as missing service and missing route. The type recorded with a verifier's code is wrong for every code from 0 to 39.",
  "every exception and code",
  "All revert codes.",
  "javascore/bmc/src/main/java/foundation/icon/btp/bmc/BTPMessageCenter.java: toResponseMessage", "javascore/lib/src/main/java/foundation/icon/btp/lib/BTPException.java: Type.valueOf, of, getCodeOfType")
P("Requests are answered at most once",
  "Over any sequence of calls, the replies and error answers that go out for a request are never more than the times that request came in; a reply uses up what is kept for the request, so that a second reply fails; a request that was received can be replied to. A request without a fee record is delivered but can never be answered.",
  "every sequence of calls by anyone, for arbitrary verifiers, services and chain; every request",
  "Re-entrant services, re-sent requests and error answers combine over unbounded histories.",
  "javascore/bmc/src/main/java/foundation/icon/btp/bmc/BTPMessageCenter.java: handleMessage, sendMessageWithFee, sendError, responseInfos")
P("Fees and rewards are conserved",
  "In every coin, what is owed (rewards, fees kept for answers, unsettled claims), travels on with messages or was paid out, together with what confirmed claims released, is what was paid in and what incoming messages brought, plus the fees of failed messages for this network that are no requests, which are counted twice. A message sent pays and carries the fees listed for its network, both ways for a request and the first half for a message without answer. Messages sent are genuine if those received are: no negative fees, claims consistent. Fees of one-way messages an owner drops are lost beyond the first; a claim whose confirmation cannot be routed is credited on both sides.",
  "every sequence of calls, every coin, for arbitrary verifiers, services and chain that only give genuine messages and non-negative amounts",
  "A conservation law over unbounded histories with failing sub-calls, re-entrancy and permuted fee lists.",
  "javascore/bmc/src/main/java/foundation/icon/btp/bmc/BTPMessageCenter.java: accumulateFee, collectRemainFee, addReward, claimReward, sendMessageWithFee, sendError, handleResponse, internalHandleBTPMessage, dropMessage")
P("Only owners administer, only services send, only claimants are paid",
  "Calls of someone who is no owner leave links, routes, services, verifiers, relays, fees, owners and network ids as they are; always, routes lead over links, the own network is neither linked nor verified, no contract is registered under the message center's own service name, relays and owners have no duplicates, and removing one removes exactly that one; a reward gets less only when its holder (the fee handler for the message center) claims it, and a claim pays exactly the reward once; messages go out under a service's name only from its registered contract. Removing a link leaves half of its relays; any network can fail a claim; messages to the message center itself cannot be dropped; a replaced network id stays reserved.",
  "every sequence of calls by anyone, for arbitrary verifiers, services and chain",
  "Safety against every caller over every history.",
  "javascore/bmc/src/main/java/foundation/icon/btp/bmc/BTPMessageCenter.java: requireOwnerAccess, addLink, removeLink, addRoute, addRelay, removeRelay, claimReward, sendMessage, handleResponse, dropMessage, setBTPLinkNetworkId", "javascore/lib/src/main/java/foundation/icon/btp/lib/OwnerManagerImpl.java")
P("The verifier contract reads what the relay encoded",
  "Whatever block updates and message proofs the relay puts into a relay message, in any number and order: the bytes follow the documented RLP format, the BTP block verifier reads exactly these items in this order, and two different reports never share an encoding; other kinds of items are neither sent nor accepted. Sent in fragments of any size, a genuine update to the next block with a proof of its first messages, and later proofs of the following ones, make the contract hand over exactly these messages. Not so for the relay itself: it cannot read the header of a network that shares its type with another network, while the contract can.",
  "all lists of updates and proofs whose encoding is shorter than 2^63 bytes, all chains, hashes and signature schemes, all fragment sizes",
  "Two implementations in two languages meet only in a byte format; tests use a few fixed messages from one side.",
  "chain/icon/btp2/message.go: NewBlockUpdate, NewMessageProof, NewTypePrefixedMessage", "chain/icon/btp2/btp2.go: BuildRelayMessage, BuildBlockUpdate", "chain/icon/client/type.go: BTPBlockUpdate, BTPBlockHeader", "javascore/bmv/btpblock/src/main/java/foundation/icon/btp/bmv/btpblock/RelayMessage.java", "javascore/bmv/btpblock/src/main/java/foundation/icon/btp/bmv/btpblock/BlockHeader.java: readObject", "javascore/bmv/btpblock/src/main/java/foundation/icon/btp/bmv/btpblock/MessageProof.java: readObject", "javascore/bmv/btpblock/src/main/java/foundation/icon/btp/bmv/btpblock/BlockUpdate.java", "javascore/bmv/btpblock/src/main/java/foundation/icon/btp/bmv/btpblock/Proofs.java")
P("The Solidity RLP library reads and writes what the Go codec does",
  "An item in contract memory written by the Go codec is read as what it is, string, list or nil marker, whatever lies in memory behind it: strings and lists of items come out unchanged, numbers written in two's complement or in go-ethereum's unsigned form come out as the same number. Trees of strings, lists and nil markers are written as the Go codec writes them, unsigned numbers up to 2^128-2 and signed numbers of 128 bits too; larger ones revert. Exceptions: a string consisting of the byte 0x80 is written as the empty string, hence so is the number -128, which reverts when read; and malformed input is read beyond its end.",
  "every tree with an encoding shorter than 2^63 bytes, every memory around it, every number",
  "All trees, numbers of all lengths and all memory contents; the exceptional byte is one of 256.",
  "solidity/bmv-bridge/contracts/libraries/RLPDecode.sol", "solidity/bmv-bridge/contracts/libraries/RLPEncode.sol", "solidity/bmc/contracts/libraries/RLPDecode.sol", "solidity/bmc/contracts/libraries/RLPEncode.sol", "solidity/bmv/contracts/libraries/RLPDecode.sol", "solidity/bmv/contracts/libraries/RLPEncode.sol", "common/codec/rlp.go")
P("Contracts and relay read BTP addresses alike",
  "The Solidity library accepts exactly btp://NETWORK/ACCOUNT with a non-empty network without slash and a non-empty account, and gives both back; the Java class does the same for any protocol; writing and reading again changes nothing and equal texts are equal addresses. What Solidity accepts, Java and the relay read as the same protocol and network, Java as the same account, and the relay too unless the account contains a slash. An account text is accepted exactly if it is 0x and forty hexadecimal digits, for the number they spell; the checksummed text a contract writes is read back as the same account, with the letter case given by the hash.",
  "all byte strings, networks, accounts and hash functions",
  "Three parsers in three languages over all texts.",
  "solidity/bmc/contracts/libraries/BTPAddress.sol", "solidity/bmv-bridge/contracts/libraries/BTPAddress.sol", "solidity/bmc/contracts/libraries/ParseAddress.sol", "javascore/lib/src/main/java/foundation/icon/btp/lib/BTPAddress.java", "common/types/btpaddress.go")
P("Bridge verifiers hand over consecutive messages only",
  "A bridge verifier accepts a relay message exactly if it is called by its message center, for itself and the network it is set up for, and the message can be read and has no gap; it hands over, in order, the events of receipts not below the height reached, numbered consecutively from the next expected number, so none twice and none left out; the height never decreases; the same message sent again hands over nothing. The Solidity contract passes over an event with the expected number that is for another receiver, without counting it. The Java contract does not look at the receiver, and returns the last message and nulls when there are several.",
  "every relay message, state and caller, arbitrary hash",
  "Arbitrary receipts in arbitrary order with arbitrary numbers.",
  "javascore/bmv/bridge/src/main/java/foundation/icon/btp/bmv/bridge/BTPMessageVerifier.java: handleRelayMessage, checkAccessible", "solidity/bmv-bridge/contracts/BMV.sol: handleRelayMessage, checkAccessible")
P("Bridge messages are read as they were written",
  "A receipt encoded by the ICON bridge relay is read back unchanged by the Java bridge verifier, and by the Solidity one if no number is negative; receipts encoded by the Ethereum bridge relay are read back unchanged by the Solidity verifier, without those that have no events; the next run of events sent from ICON is handed over completely. The Java verifier reads the Ethereum relay's numbers wrongly, as negative ones, exactly when the leading bit of the leading byte is set; so from message 128 on it hands over nothing any more.",
  "all receipts whose encoding is shorter than 2^63 bytes, all numbers, all memory contents",
  "Two writers and two readers in four languages; the first number read wrongly is 128.",
  "chain/icon/bridge/message.go: NewMessageProof", "chain/icon/bridge/bridge.go: BuildRelayMessage", "chain/ethbr/message.go: NewMessageProof", "chain/ethbr/receiver.go: BuildRelayMessage", "javascore/bmv/bridge/src/main/java/foundation/icon/btp/bmv/bridge/ReceiptProof.java", "javascore/bmv/bridge/src/main/java/foundation/icon/btp/bmv/bridge/EventDataBTPMessage.java", "solidity/bmv-bridge/contracts/libraries/RLPDecodeStruct.sol")
P("Message proofs of the Solidity BTP block verifier",
  "Messages read from a proof that evaluates to a block's root and message count are messages of that block, consecutive and at the place the proof claims, unless there is a hash collision or one of the block's own messages consists of two digests; every range proof the relay builds evaluates to the root and the count. Nodes that claim no leaves are taken, so that a block with a message made of two digests lets a message be delivered that was never sent. The ring buffer is a queue and levels are what they should be.",
  "all proofs, all lists of up to 2^31 messages, all ranges, every hash with 32-byte digests",
  "Forged proofs range over all bytes; the ring buffer's wrap-around depends on every shape of tree.",
  "solidity/bmv/contracts/libraries/MessageProofLib.sol: decode, calculate, concat, push, pop, toQueue, levelOf", "common/mbt/proof.go")
P("Block updates of the Solidity BTP block verifier",
  "A block update is accepted only if it continues the known block, with the next message number and all messages handed over, and validators in more than two thirds of the places signed exactly this header; if validators sign genuine blocks only, the header is this network's section of one. With at most as many whole signatures as validators the outcome depends on the number of places that match alone, and genuine headers with enough of them are accepted. One missing signature among the first two thirds makes the update fail; the list of new validators is not compared with the signed hash.",
  "every header, signature list and state, every hash and signature scheme",
  "Adversarial headers and signatures; quorum over validator lists of all sizes.",
  "solidity/bmv/contracts/BtpMessageVerifier.sol: checkBlockProof, hasQuorumOf, handleRelayMessage", "solidity/bmv/contracts/libraries/BlockUpdateLib.sol", "solidity/bmv/contracts/libraries/MerkleTreeLib.sol", "solidity/bmv/contracts/libraries/Utils.sol: recoverSigner")
P("The Solidity BTP block verifier hands over the chain's messages",
  "Over any sequence of relay messages, from anyone, whose new validators are those of the signed hash: the n-th message handed over is a message of the block that carries the n-th message of the chain, and if every proof starts where the last one ended, the messages handed over are the chain's, in order and each once, unless the hash is broken or a message is made of two digests. Nothing compares the place of a proof with what was handed over before, so that a proof can be used twice. Only the message center, for the configured network and with the next number is served; what the relay packs is what the contract reads, and a genuine next block with a proof of its first messages is accepted and exactly these are handed over.",
  "every chain, every sequence of calls, every hash, signature scheme and memory contents",
  "Unbounded histories with adversarial relays, across two languages.",
  "solidity/bmv/contracts/BtpMessageVerifier.sol: constructor, handleRelayMessage, checkMessageSn", "solidity/bmv/contracts/libraries/RelayMessageLib.sol", "solidity/bmv/contracts/libraries/String.sol: splitBTPAddress", "chain/icon/btp2/btp2.go: BuildRelayMessage")
P("Calls sent through the call service and their rollbacks",
  "Calls are numbered from one in the order in which they are sent; for each, whoever else calls the service and from within whichever called contract: the message is sent at once to the network in the address, with the sender, account, data and number, under the number if a rollback is asked for and under zero else, and the sender is told the number. While a rollback is outstanding, every response or error for the number is announced as it came; a success ends the call, a failure makes the rollback executable; it is executed at most once, with the data and by calling the contract of the call, under the service's own address, only after a failure and no success since; then nothing more happens. A success that arrives after a failure cancels the announced rollback, and a response counts from whatever network it comes.",
  "every sequence of calls of the service, nested ones included, for the Java and the Solidity implementation, arbitrary answers of BMC and called contracts",
  "Unbounded histories with re-entrant calls and adversarial responses.",
  "javascore/xcall/src/main/java/foundation/icon/btp/xcall/CallServiceImpl.java: sendCallMessage, executeRollback, handleBTPMessage, handleBTPError, handleResponse", "solidity/xcall/contracts/CallService.sol: sendCallMessage, executeRollback, handleBTPMessage, handleBTPError, handleResponse")
P("Calls that arrive at the call service",
  "Requests are numbered from one in the order in which they arrive and announced with their sender's BTP address; each is executed at most once, also if the called contract calls the service; the contract called is the one the request names, with the request's data and its sender's BTP address; what came of it is announced and, if a response was asked for, sent at once to the network of the request under the negated number, reporting success exactly if the contract ended normally. A request for a text that is no address is answered with a failure. No call carries the service's own address as sender, which marks rollbacks, unless the BMC delivers from the own network. Requests with an empty sender, or in Solidity with numbers from 2^128-1 on, stay forever without answer.",
  "every sequence of calls of the service, nested ones included, for the Java and the Solidity implementation",
  "Unbounded histories with re-entrant executions and forged requests.",
  "javascore/xcall/src/main/java/foundation/icon/btp/xcall/CallServiceImpl.java: executeCall, handleRequest", "solidity/xcall/contracts/CallService.sol: executeCall, handleRequest, tryHandleCallMessage")
P("Coins of the call service",
  "A call is accepted only with at least the protocol fee plus what the BMC quotes; the protocol fee goes to the fee handler at once if there is one, or is kept; the rest goes to the BMC with the message, including what was paid too much; responses carry no coins; all kept coins go to a handler when it is set; nothing else is paid. So the balance is what came in less what went out.",
  "every sequence of calls of the service, nested ones included, both implementations",
  "Sums over unbounded histories with handlers and fees changing.",
  "javascore/xcall/src/main/java/foundation/icon/btp/xcall/CallServiceImpl.java: sendCallMessage, setProtocolFeeHandler, setProtocolFee, getFee", "solidity/xcall/contracts/CallService.sol: sendCallMessage, setProtocolFeeHandler, setProtocolFee, getFee")
P("Call service messages between Java and Solidity",
  "Java writes the message format and both implementations read it, Solidity taking null for empty; what Solidity writes is read by both and has the same bytes, unless a length consists of bytes 255 only, when it gets a leading zero. A call sent from either to the other is kept there as it was sent; the response after its execution, delivered back, ends the call exactly if the named contract ended normally and opens the rollback else. The single byte 0x80 as data arrives as no data if Solidity sent it; numbers from 2^128-1 on cannot be written by Solidity.",
  "all requests and responses up to sizes of 2^29 bytes, all states, callers and memory contents",
  "Two writers and two readers in two languages over all contents; the lengths that are written differently are rare.",
  "javascore/xcall/src/main/java/foundation/icon/btp/xcall/CSMessage.java", "javascore/xcall/src/main/java/foundation/icon/btp/xcall/CSMessageRequest.java", "javascore/xcall/src/main/java/foundation/icon/btp/xcall/CSMessageResponse.java", "solidity/xcall/contracts/libraries/RLPEncodeStruct.sol", "solidity/xcall/contracts/libraries/RLPDecodeStruct.sol")
P("Who may do what at the call service",
  "Messages and errors are taken from the BMC only, and only for this service; the admin is set by the owner only, the fee and its receiver by the admin only, or the owner if there is none: as long as these do not act, nobody changes the settings, not even from within called contracts; rollbacks can be asked for by contracts only. In Solidity an error whose code has more than 32 digits cannot be delivered.",
  "every caller, state and sequence of calls, nested ones included",
  "Adversarial callers in unbounded histories.",
  "javascore/xcall/src/main/java/foundation/icon/btp/xcall/CallServiceImpl.java: onlyOwner, onlyBMC, checkService, setAdmin, admin", "solidity/xcall/contracts/CallService.sol: onlyBMC, onlyOwner, onlyAdmin, setAdmin, admin", "solidity/xcall/contracts/libraries/Integers.sol: toString")
P("Paths in the relay's configuration",
  "A path made relative to the configuration file is relative and leads from the file's directory to where it led from the working directory; a path made absolute by a file path that is absolute or empty is absolute and leads to where it led from the file's directory, so that both together lead to the same place. The path used for a unix socket leads to the place given, is not longer than any absolute path to it, and is refused only for the root. What was saved is read back by the returned path, whatever file path is set, and no other file changes. The save command keeps where base directory and log file are, started again from anywhere, if the configuration in use is in the working directory or none, or the path is absolute; with a configuration file elsewhere relative paths move, and without a log file the working directory becomes the log file.",
  "all paths, working directories, files and options",
  "Paths with any mixture of names, dots and slashes from any directory; where a path leads is not visible in its text.",
  "common/config/fileconfig.go: ResolveAbsolute, ResolveRelative, AbsBaseDir, Save, Load", "common/http.go: resolveUnixPath", "cmd/relay/main.go: main, setLogger")
P("Links of the relay program and their errors",
  "Between supported chains, direction front has one link that reads the source's node with the reader of its chain and mode and sends to the destination's node with the sender of its chain, signed by the destination's wallet; reverse is the same with the sides exchanged; both has these two. Another direction is an error, an unsupported chain ends the program. The program ends only with an error of a link's status request or relay result; once it waits, no error is lost before it has one to end with. An error before it waits is lost and leaves it waiting for ever; an error of starting a receiver is never seen; senders to ICON get the options of the source, those to EVM chains none.",
  "all configurations; all interleavings of the program, its links and their goroutines, for any number of links",
  "Lost errors depend on the schedule of goroutines.",
  "cmd/relay/linkfatory.go: NewLink, newLink, newReceiver, newSender", "common/link/link.go: Start, receiverChannel, senderChannel")
P("Key stores of the relay program",
  "The configuration that the save command writes holds no passwords, keeps given key stores and has a new one where there was none; each opens with the password that was in use, the text or the content of the secret file, to the key it had or to the new key. A key store that does not open, or an unreadable secret file of the destination, stops the command. An unreadable secret file of the source does not: a new source key is then saved under the empty password. No option makes the command write a key store to a file of its own.",
  "all key stores, passwords, secret files and keys; any encryption that decrypts what it encrypted",
  "Error paths of missing files in combination with new keys.",
  "cmd/relay/main.go: Wallet, resolvePassword, EnsureWallet, main")
P("MessagePack codec",
  "For every Go type built from booleans, integers, strings, bytes, pointers, slices, arrays, structs and maps (without pointers to what can be nil itself) and every value of it whose encoding is shorter than 2^32 bytes: codec.MP writes MessagePack for the value, and no shorter MessagePack for it exists; every MessagePack for it, whichever lengths it uses, is read back as the value with what follows left over; so different values have different bytes, no value's bytes begin another's, and nil differs from empty. Members beyond a struct's or an array's are passed over, missing ones are zero; map entries are written in the order of keys and read in any order. On arbitrary bytes, what is read has the type and depends on the bytes consumed alone; a value cut off anywhere is refused. Numbers that do not fit are cut to the width, not refused.",
  "every type and value as described, every form the format allows, arbitrary input and any rest",
  "Types and values nest without bound, and the format has several forms for every item.",
  "common/codec/msgpack.go: mpReader.*, mpWriter.*", "common/codec/codec.go: encodeValue, decodeValue", "common/codec/bytes.go: MarshalToBytes, UnmarshalFromBytes")
P("Numbers of the message center for the EVM",
  "The messages sent to a neighbour carry consecutive numbers starting with one, over any history, however their sending was caused; the number kept is that of the last one. Removing a link clears the numbers, so that it starts again. The messages this network starts have consecutive network serial numbers starting with one, whatever their destination, and removing links does not change that. The number of messages received from a neighbour changes only when a registered relay of that link delivers messages the verifier of its network vouches for, given that very number, and by their number; when an owner drops the next message, by one; and when the link is removed, to nothing. A new link is told the neighbours so far, and they are told of it.",
  "all sequences of calls by outside callers, any verifiers, services, receivers and fees",
  "Numbers depend on the whole history and on what called contracts do.",
  "solidity/bmc/contracts/BMCPeriphery.sol: handleRelayMessage, _sendMessage, sendInternal, dropMessage, clearSeq, sendMessageWithFee", "solidity/bmc/contracts/BMCManagement.sol: addLink, removeLink, dropMessage")
P("Fate of messages at the message center for the EVM",
  "Every message of an accepted relay message, in order, is delivered to its service, sent on to the neighbour the routes name, answered with an error, or dropped with its fee kept; each has exactly one ending event, and nothing else is put out. Which: another network's message goes to the next hop or is refused as unreachable; this network's goes to the service it names, told its source, number and bytes or, for an error, code and text, and is refused if there is none, if it fails or if the error cannot be read. No readable message of ordinary size stops the link, whatever its service does, provided the service has code and requests have positive serial numbers. Unreadable bytes, a request without such a number whose service is missing, a service without code and numbers beyond 128 bits for another network do stop it.",
  "all states, relay messages, verifiers and services",
  "Arbitrary bytes and arbitrary behaviour of services, which may send messages while called.",
  "solidity/bmc/contracts/BMCPeriphery.sol: handleRelayMessage, handleMessage, _sendError, emitBTPEvent", "solidity/bmc/contracts/BMCService.sol: handleFee, handleErrorFee, removeResponse, _collectRemainFee, _accumulateFee", "solidity/bmc/contracts/libraries/RLPDecodeStruct.sol: decodeBTPMessage", "solidity/bmc/contracts/libraries/RLPEncodeStruct.sol: encodeBTPMessage")
P("Answers to requests at the message center for the EVM",
  "The replies and errors put out for a network and serial number, together with the requests with that network and number that still wait for their service, are never more than the requests with them that were delivered or dropped by an owner: so each request is answered at most once. A request that waits is not forgotten: it goes on waiting, with its fee, until an answer is put out or another request with the same source, service and number arrives. A reply is accepted only from the registered service the request was for while it waits; it travels along the routes with the request's number and the fee kept for it, and a second one is refused.",
  "all sequences of calls by outside callers, any verifiers, services, receivers and fees; all networks other than its own and all positive numbers",
  "Counts over whole histories; services reply at any time, also while another message is handled.",
  "solidity/bmc/contracts/BMCPeriphery.sol: sendMessage, sendMessageWithFee, handleRelayMessage, _sendError", "solidity/bmc/contracts/BMCService.sol: handleFee, removeResponse")
P("Money at the message center for the EVM",
  "For every network's coins and over any history: what the message center owes (rewards, fees kept for answers, claims under way) is never negative, and together with the fees it sent on and, for its own coins, the coins it paid out, it is at most the fees that came with messages and, for its own coins, the coins that came with calls and the claims delivered from other networks. So nothing is paid out or sent on that did not come in. Conversely nothing that came in is lost: it is owed, was sent on or was paid out, except claims of another network's coins reported as paid there, and coins sent with a deposit or along with a claim of own coins, which are owed to nobody.",
  "all sequences of calls by outside callers, any verifiers, services, receivers and fees, all networks",
  "Sums over whole histories with reentrant services, errors, drops and overwritten requests.",
  "solidity/bmc/contracts/BMCService.sol: _addReward, _collectRemainFee, _accumulateFee, handleFee, handleErrorFee, clearReward, addRequest, removeResponse, handleBTPMessage, _handleResponse", "solidity/bmc/contracts/BMCPeriphery.sol: claimReward, receive, sendMessageWithFee, _sendError, _collectOverFee")
P("Tables and routes of the message center for the EVM",
  "Over any history: the lists of destinations, services, verifiers and relays have no repetitions and agree with the tables they belong to; fees exist for known destinations only; an announced route has been announced; links and routes change only by messages for the message center that a registered relay delivers, one announcement or withdrawal after the other, and by owners. As long as networks announce others once, withdraw what they announced, links are added for unknown networks, routes set by owners do not replace direct ones, and no direct route or route set by an owner loses its last announcement: every link is listed once and is the route to its network, every other route leads to a link that announces the network or that an owner chose, the announcements are counted exactly, so a message goes to a link, a network is unreachable only if no link leads there, none announces it and no owner set a route; and a link no owner's route refers to can be removed, after which nothing leads to it. The first to announce a network becomes its route. Without those conditions each of these fails: a neighbour can take away the direct route to a linked network or a route set by an owner, a new link may not be used and be added twice, announcements can be made in another's name or by nobody, and links can become impossible to remove.",
  "all sequences of calls by outside callers, any verifiers, services and announcements",
  "The tables are shaped by the whole history of announcements from other networks.",
  "solidity/bmc/contracts/BMCManagement.sol: addLink, removeLink, addRoute, removeRoute, addRouteInfo, removeRouteInfo, resolveNextInReachable, addReachable, removeReachable, setFeeTable, addService, removeService, addVerifier, removeVerifier, addRelay, removeRelay", "solidity/bmc/contracts/libraries/Utils.sol: removeFromStrings, removeFromAddresses", "solidity/bmc/contracts/BMCService.sol: handleBTPMessage")
P("Who may do what at the message center for the EVM",
  "Over any history there is an owner, the number of owners kept is their number, and the zero address is none unless it deployed the contract. The contract behind a service name, the verifier of a network, the owners, the links, the relays of a link and the fee handler are what the last call about them that did not revert decided; a caller who is not an owner changes none of them, nor the list of links, and no fee except that it goes with its route. The methods the three contracts have for each other refuse all other callers; a service's messages are sent only by the contract registered for it; messages are taken only from a relay of a link. A reward shrinks only by a claim of whoever earned it (the message center's own by the fee handler); a claim takes the whole reward, transfers it in own coins or keeps it as a request under the number of the new message, and cannot be repeated. Not guaranteed: the answer to a claim is taken from any network, also one that was not asked, and can bring the reward back; the name of the message centers' own service can be registered; whoever is made fee handler cannot claim what they earned themselves.",
  "all sequences of calls by outside callers, any verifiers, services, receivers and messages",
  "Permissions and balances against arbitrary callers in unbounded histories, with services that call back.",
  "solidity/bmc/contracts/BMCManagement.sol: requireOwnerAccess, addOwner, removeOwner, addService, removeService, addVerifier, removeVerifier, addRelay, removeRelay, addLink, removeLink, setFeeHandler, addReachable, removeReachable", "solidity/bmc/contracts/BMCPeriphery.sol: sendMessage, handleRelayMessage, claimReward, requireBMCManagementAccess, requireBMCServiceAccess", "solidity/bmc/contracts/BMCService.sol: clearReward, getReward, addRequest, _handleResponse, handleBTPError")
P("Messages between message centers mean the same in Java and in Solidity",
  "BTP messages, internal messages, responses, claims, Init, Link and Unlink messages are written by both message centers as the same lists of fields. Java reads back whatever Java writes, Solidity reads it with null replaced by empty as long as numbers fit its types, and both read what Solidity writes, unless a text or payload is the single byte 0x80 (it arrives empty) or a number is -128. Solidity writes a message exactly if its numbers fit in 128 bits, with the bytes Java writes unless a list has 255, 65535, ... bytes. A message with number -128, such as the answer to the message with network number 128, is written as bytes neither side can read, and a relay message containing it is refused as a whole.",
  "for all messages, fees, texts, payloads, memory contents behind the bytes",
  "tests write and read a few short messages with small numbers on one platform; number 128 and a list of exactly 255 bytes do not come up",
  "javascore/bmc/src/main/java/foundation/icon/btp/bmc/BTPMessage.java: readObject, writeObject", "javascore/bmc/src/main/java/foundation/icon/btp/bmc/FeeInfo.java: readObject, writeObject", "javascore/bmc/src/main/java/foundation/icon/btp/bmc/ResponseMessage.java: readObject, writeObject", "javascore/bmc/src/main/java/foundation/icon/btp/bmc/InitMessage.java: readObject, writeObject", "solidity/bmc/contracts/libraries/RLPEncodeStruct.sol: encodeBTPMessage, encodeFeeInfo, encodeBMCMessage, encodeResponseMessage, encodeInitMessage, encodePropagateMessage, encodeClaimMessage, addLength", "solidity/bmc/contracts/libraries/RLPDecodeStruct.sol: decodeBTPMessage, decodeFeeInfo, decodeInitMessage", "solidity/bmc/contracts/libraries/RLPEncode.sol: encodeBytes, encodeInt")
P("Accumulator of the ICON block verifier contract",
  "Adding hashes never fails, and the roots kept are the binary decomposition of the newest hashes: of all of them without a limit on the number of roots, in which case they are the roots of the Go accumulator over the same hashes; with a limit of r roots there are never more, the offset counts the forgotten hashes, and at least 2^(r-1) are kept once any is forgotten. Witnesses of the Go accumulator for the same number of entries are accepted without a limit, and those of any later number of entries are accepted for every hash still kept when newer witnesses are allowed. Conversely an accepted witness for the current height shows the hash to be one of those kept, in the block of the root the witness's length names; the hash at the height given if that is a height of this block; and an accepted newer one shows it to be the hash at the height given; unless the hash function collides. An older one is accepted iff the hash is among the last ones added that the cache has room for. As the contract builds the accumulator only witnesses for the current height are accepted. Not guaranteed: the height beside a witness for the current height is otherwise not checked; with a limit on the roots witnesses from an unlimited tree are refused; lowering the limit later (ensureRoots) never ends or puts roots on wrong levels; a smaller cache (ensureCache) keeps the oldest hashes.",
  "all sequences of 32-byte hashes, offsets, limits and cache sizes, all witnesses, any hash function with 32-byte results",
  "Tests add a handful of hashes; pruning, ring wrap-around and false witnesses need all lengths and all bytes.",
  "javascore/bmv/icon/src/main/java/foundation/icon/btp/bmv/icon/MerkleTreeAccumulator.java: add, appendRoot, addOffset, verify, getRoot, getRootIdxByHeight, putCache, hasCache, ensureRoots, ensureCache", "common/mta/accumulator.go: WitnessFor, AddData, AddHash, WitnessesToHashes")
P("Patricia trees in the ICON block verifier contract",
  "The proof made of the nodes on the way to a value is accepted under the root of the tree and gives the value, provided the nodes are named by hashes; a value whose way leads through a node contained in its parent cannot be proved at all. Whatever is accepted under the root of a tree is the tree's value for the key, or the key is a proper prefix of one of the tree's keys. For trees whose keys are encoded indexes, as those of receipts and event logs, the latter cannot happen, so that exactly the value under the index is accepted. Two accepted proofs for one root and key give the same bytes. All this up to a collision of the hash function. A leaf is accepted for every prefix of its key, and many failures are not reported as MPTException.",
  "all trees, keys, proofs, any hash function with 32-byte results, any rule for containing nodes",
  "Tests prove a few receipts; false proofs and all shapes of trees need all byte strings.",
  "javascore/bmv/icon/src/main/java/foundation/icon/btp/bmv/icon/MerklePatriciaTree.java: prove, encodeKey, bytesToNibbles, Node.readObject, Node.prove, Node.fromBytes", "javascore/score-util/src/main/java/foundation/icon/score/util/ArrayUtil.java: matchCount")
P("The ICON block verifier contract",
  "Block updates are accepted exactly when they form a chain of consecutive blocks, each certified by distinct votes of more than two thirds of the validators its predecessor named. Two certified blocks of one height imply that more than a third of the validators voted for both, and two chains from the same start agree as far as both reach, up to that or a collision of the hash function. After any calls since the deployment the accumulator is that of such a chain. Messages are accepted only from the message center of the deployment for its network; they are the message events of the connected contract in receipts of a block of that chain (the last of the updates, or one proved), numbered without gap from the expected number on. Witnesses must be for exactly the height of the contract. A call without updates changes neither validators nor accumulator. Of several messages only the last is handed over, the others are replaced by null.",
  "all calls, relay messages, validators, votes, trees of receipts, any hash function with 32-byte results, any signature recovery",
  "Tests relay recorded blocks; agreement of all chains and of all histories of calls, and two messages in one call, are not tried.",
  "javascore/bmv/icon/src/main/java/foundation/icon/btp/bmv/icon/BTPMessageVerifier.java: handleRelayMessage, verifyBlockUpdates, verifyBlockProof, verifyVotes, proveReceiptProof, checkAccessible", "javascore/bmv/icon/src/main/java/foundation/icon/btp/bmv/icon/EventLog.java: toMessageEvent", "javascore/bmv/icon/src/main/java/foundation/icon/btp/bmv/icon/RelayMessage.java: readObject", "javascore/bmv/icon/src/main/java/foundation/icon/btp/bmv/icon/BMVProperties.java")
P("Bytes and stored state of the ICON block verifier",
  "Relay messages, headers, validators, receipts and event logs written by the classes of the verifier are read back as they were. No two headers have the same bytes, and no two precommits: a vote is for one height, round, block, part set and time. The properties and the accumulator the contract stores are read back as they were, after a deployment and any calls with messages of bytes while the height is below 2^63. Headers are read with less than they hold when their result has more than four elements: the hash computed is then not that of the bytes unless the hash function collides. A result with a null fourth element is refused.",
  "all values whose numbers fit and whose bytes are bytes, all sizes below 2^63, all histories of calls",
  "Tests decode recorded messages; they write few of the classes and never store and read the properties of arbitrary histories.",
  "javascore/bmv/icon/src/main/java/foundation/icon/btp/bmv/icon/RelayMessage.java: readObject, writeObject", "javascore/bmv/icon/src/main/java/foundation/icon/btp/bmv/icon/BlockHeader.java: readObject, writeObject", "javascore/bmv/icon/src/main/java/foundation/icon/btp/bmv/icon/Result.java: readObject", "javascore/bmv/icon/src/main/java/foundation/icon/btp/bmv/icon/VoteMessage.java: writeObject", "javascore/bmv/icon/src/main/java/foundation/icon/btp/bmv/icon/BMVProperties.java: readObject, writeObject", "javascore/bmv/icon/src/main/java/foundation/icon/btp/bmv/icon/MerkleTreeAccumulator.java: readObject, writeObject", "javascore/bmv/icon/src/main/java/foundation/icon/btp/bmv/icon/Receipt.java: readObject, writeObject")
P("Many message centers: one message from start to last copy",
  "However many networks are joined in whatever way: what a network has taken in from a neighbour is what the neighbour put out for it, in order, without gap or repetition, up to the number its link shows. Every message taken in goes back to one the named network put out under this number, and everything under one name is a copy of it, the answer of its service or an error with its numbers. A message is handed at most once to the network it is for, and never while a copy is under way. A request has at most one answer: of copy under way, promise to answer, answer under way and answer handed over there is at most one at a time. This needs verifiers that return only what was put out, links that are not removed, and owners who name the message they drop correctly: a link that is removed and added again delivers its messages a second time, and a wrongly named drop makes a second answer.",
  "all sets of networks, links and routes, all sequences of calls at all networks, all services, all sound verifiers, all failures",
  "Tests run one message center with mocks; none runs several, and none can run all orders in which relays deliver.",
  "javascore/bmc/src/main/java/foundation/icon/btp/bmc/BTPMessageCenter.java: handleRelayMessage, handleMessage, sendMessage, dropMessage, removeLink, addLink, resolveNext", "doc/btp.md", "doc/bmc.md")
P("The native coin service keeps its books",
  "After any calls by anybody: what is locked of an owner is exactly what their pending transfers took; of every coin what was started is locked, settled or given back, what was given back is refundable or reclaimed, the fees are those of settled transfers, and the native coins are those taken less those paid out and reclaimed. The tokens the service holds cover what it owes of every coin that is not native; the supply of a token is what the accounts hold. Transfers are numbered 1, 2, ...; each ends at most once, and the pending ones are those not ended. A transfer sends each value less the fee: the ratio's share rounded down, at least 1. An answer from the message center to a pending transfer is always carried out: OK settles it, anything else makes all of it refundable, fee included, and a refund of tokens can always be reclaimed. Locked amounts shrink only by the message center, refundable ones only by their owner, fees never, tokens of others only by their own calls. The native coins need not cover what is owed, a request naming the native coin twice is paid in part and answered OK, and any network may answer.",
  "all sequences of calls of all methods by all callers, all behaviours of receivers, of the token contract and of the message center, all names and amounts",
  "Integration tests make single transfers against mocks; no test follows the sums over histories.",
  "javascore/nativecoin/src/main/java/foundation/icon/btp/nativecoin/NativeCoinService.java: transferNativeCoin, transfer, transferBatch, reclaim, handleBTPMessage, handleBTPError, handleRequest, handleResponse, lock, unlock, refund, addFee, newAssetTransferDetail", "javascore/nativecoin/src/main/java/foundation/icon/btp/nativecoin/irc31/OwnerBasedIRC31Supplier.java: mint, mintBatch, burn, burnBatch", "javascore/lib/src/main/java/foundation/icon/btp/lib/OwnerManagerImpl.java")
P("Native coin services on several networks keep the coins together",
  "Any number of networks each run the service; their message centers hand every message over at most once, at any time, and turn any request back as an error. If answers get through: the native coins a service keeps cover what it owes and all tokens of its coin on the other networks, less what is paid but not yet answered, and are exactly that if no batch names a coin twice. Every transfer has ended once, or exactly one message or error of it is under way; a transfer that ended well was carried out exactly once, by the network asked, one given back was carried out nowhere. Refunds and fees are always covered, a request always finds the native coins it asks for, answers and errors can always be handed over, and when nothing is under way the coins are the refunds, the fees and the tokens abroad. If an answer is turned back, the error for it ends an unrelated transfer of the same number, and coins are paid twice; if a batch names a coin twice, coins are left nobody has a claim to.",
  "all numbers of networks, all calls of all users, all orders of delivery, all requests that fail, all behaviours of receivers and of the token contract",
  "Tests use one service and a mock message center; the sums span several networks and all orders of delivery.",
  "javascore/nativecoin/src/main/java/foundation/icon/btp/nativecoin/NativeCoinService.java: handleRequest, handleResponse, handleBTPMessage, handleBTPError, sendRequest, responseSuccess, transferBatch, reclaim", "javascore/bmc/src/main/java/foundation/icon/btp/bmc/BTPMessageCenter.java: handleMessage, sendError")
P("Native coin services understand each other's bytes",
  "Requests, answers and unknown-type messages sent by one native coin service are read by another as sent: the account, the coins and amounts in their order, the code. Each message and record (message, request, answer, stored transaction, balance, properties, event data) is written as the tree of items described, nulls included; every byte form of such a tree is read back as the same value, whatever follows it; a stored record is read as stored. A message does not have one form only: what follows the last field inside a list is passed over.",
  "all field values with nulls, all texts, amounts of any size, all lists, all bytes after the item; total length below 2^32",
  "Tests round trip a few literal objects.",
  "javascore/nativecoin/src/main/java/foundation/icon/btp/nativecoin/NCSMessage.java: readObject, writeObject", "javascore/nativecoin/src/main/java/foundation/icon/btp/nativecoin/TransferRequest.java: readObject, writeObject", "javascore/nativecoin/src/main/java/foundation/icon/btp/nativecoin/TransferResponse.java: readObject, writeObject", "javascore/nativecoin/src/main/java/foundation/icon/btp/nativecoin/Asset.java: readObject, writeObject", "javascore/nativecoin/src/main/java/foundation/icon/btp/nativecoin/AssetTransferDetail.java: readObject, writeObject", "javascore/nativecoin/src/main/java/foundation/icon/btp/nativecoin/TransferTransaction.java: readObject, writeObject", "javascore/nativecoin/src/main/java/foundation/icon/btp/nativecoin/Balance.java: readObject, writeObject", "javascore/nativecoin/src/main/java/foundation/icon/btp/nativecoin/NCSProperties.java: readObject, writeObject", "javascore/nativecoin/src/main/java/foundation/icon/btp/nativecoin/NativeCoinService.java: handleBTPMessage, sendMessage, encode")
P("The token service keeps its books",
  "As long as nobody calls setBalance: what a user can use of a token is what they deposited, less what their transfers took, with what came back; what is locked is what is under way and the fees of transfers ended by an error; the fees held are those of successful transfers less those gathered, with those returned. The tokens the service holds are those that came in less those paid out, so they cover the books and fees if no more was paid for requests than was sent off. With positive amounts and fee shares up to 100% nothing on the books is below 0. Transfers have their own numbers and end at most once, as started; an answer from the message center to a transfer under way is always carried out; a request is answered OK only when its first asset was paid in full; gathering sends all fees off, and an answer with code 1 brings them back. What a user can use shrinks only by their own transfers, the service's tokens only by the message center, tokens are registered only by owners. Not so: anybody can set balances; a negative amount makes balance; errors for gathered fees or foreign receivers are never carried out; assets after the first are not paid; the count of owners can be wrong.",
  "all sequences of calls by all callers with all arguments, all ledgers of the tokens to start with, all decisions of the message center and of receiving contracts",
  "Tests call a few functions with one token and one user.",
  "javascore/bsh/src/main/java/foundation/icon/btp/bsh/ServiceHandler.java: transfer, handleBTPMessage, handleBTPError, handleFeeGathering, tokenFallback, setBalance, register, addOwner, removeOwner", "javascore/bsh/src/main/java/foundation/icon/btp/irc2/IRC2Basic.java: transfer", "javascore/bsh/src/main/java/foundation/icon/btp/bsh/types/TransferAsset.java: TransferAsset", "javascore/bsh/src/main/java/foundation/icon/btp/bsh/types/Balance.java: Balance")
P("Token services understand each other's bytes",
  "Requests, answers and unknown-type messages made by createMessage are read by another token service as made: receiver, assets with amounts and fees in their order, code. Each record (transfer, balance, token, address) is written as the tree of items described; every byte form of it is read back as the same value, whatever follows it; a stored transfer is read back as stored both when it is answered and when an error is reported. A BTP address with a \".\" in the network and no further \"/\" gives its protocol, network and contract, and whatever is read off an address puts it together again. A network without a \".\" is refused; a \"/\" in the contract moves part of it to the network.",
  "all texts, amounts of any size, all lists of assets, all bytes after the item, all addresses; total length below 2^32, codes of 32 bits",
  "Tests send a few literal messages.",
  "javascore/bsh/src/main/java/foundation/icon/btp/bsh/ServiceHandler.java: createMessage, handleBTPMessage, handleBTPError, encodeToBytes", "javascore/bsh/src/main/java/foundation/icon/btp/bsh/types/TransferAsset.java: readObject, writeObject", "javascore/bsh/src/main/java/foundation/icon/btp/bsh/types/Asset.java: readObject, writeObject", "javascore/bsh/src/main/java/foundation/icon/btp/bsh/types/Balance.java: readObject, writeObject", "javascore/bsh/src/main/java/foundation/icon/btp/bsh/types/Token.java: readObject, writeObject", "javascore/bsh/src/main/java/foundation/icon/btp/bsh/types/BTPAddress.java: fromString, readObject, writeObject")
P("The fee aggregation settles syndications fairly",
  "Always: balances are what was given less what was claimed, refunds what was left over less what was withdrawn, the locked tokens of a name are its balances together; all ICX that came in is with the fund, in open syndications or was withdrawn. Syndications have different numbers, end at most once and not before their end, with the tokens they began with. When everybody deposits something: each depositor of an ended syndication gets exactly one share, computed from the price at that time with 10% off, others get none, and together no more than was for sale; and if different names are different tokens, the contract holds what it owes and what it sells, so a claim is paid when the token contract makes the transfer. Deposits, claims and withdrawals are by the owner of the balance; tokens and duration are set by the owner of the contract. Not so: deposits of nothing multiply one's share; refunds are promised though all ICX was sent on, so a withdrawal pays nothing or takes the ICX of an open syndication, which then cannot end; a syndication nobody paid for may never end; a negative duration is accepted; a token under two names is sold twice.",
  "all sequences of calls by all callers, all ICX and tokens to start with, all prices, times and decisions of other contracts",
  "Tests run one syndication with mocked balances and one price.",
  "javascore/fee-aggregation/src/main/java/foundation/icon/btp/FeeAggregationSCORE.java: deposit, withdrawal, claim, endAuction, distributeTokenShare, registerIRC2, registerIRC31, setDurationTime, fallback", "javascore/fee-aggregation/src/main/java/foundation/icon/btp/Syndication.java: Syndication, deposit", "javascore/fee-aggregation/src/main/java/foundation/icon/btp/Token.java: Token")
P("Lists of received blocks shared by goroutines without a lock",
  "The link and the receivers keep received blocks in lists that one goroutine appends to while another cuts off what a status acknowledges. However the reads and writes of the two interleave, slicing stays in bounds, the list holds blocks that arrived, in their order, and a block leaves it only when a cut is written. As long as no append is written between the second read and the write of a cut, every block that arrived in order is in the list or acknowledged by a status. Otherwise a block that nothing acknowledges is lost for good: the link sends its update without its messages, the receiver never sends it and goes on with the block after it.",
  "all interleavings of the single accesses of both goroutines, all blocks and statuses",
  "The loss needs an append within the few instructions between reading and writing a slice; the tests have one goroutine.",
  "common/link/link.go: receiverChannel, clearReceiveStatus, buildProof", "chain/icon/btp2/btp2.go: updateReceiveStatus, monitorBTP2Block, BuildBlockUpdate", "chain/icon/bridge/bridge.go: updateReceiveStatus", "chain/ethbr/receiver.go: updateReceiveStatus")
P("The relay with the BTP block receiver brings the chain's messages to the verifier",
  "A chain signs BTP blocks; the BTP block receiver fetches them, the link builds relay messages from them, the sender cuts these into fragments, and the message center puts them together and has its verifier check them. If the relay starts at the height and message the verifier stands at, a block is fetched, taken and handled before the next one, and every block fits the size limit, then the relay never crashes, sends one relay message per block, and the verifier takes all of them and hands over exactly the chain's messages, once and in order, whatever statuses arrive in between. Nothing makes the relay keep to that: a block fetched before the last one is handled crashes the process; a relay message that is lost is not sent again and all later ones are refused; started inside a block nothing gets through; a failed fetch leaves the block out for good; a missing status crashes; from height zero nothing is followed.",
  "all chains of signed blocks, all limits and fragment sizes, all status reports at any time, all hash functions with 32-byte values and all signature schemes",
  "Receiver, link, sender, message center and verifier are in two languages and are only tested one by one, with mocks for the others.",
  "common/link/link.go: receiverChannel, BuildRelayMessage, buildProof, sendRelayMessage", "chain/icon/btp2/btp2.go: monitorBTP2Block, BuildBlockUpdate, BuildMessageProof, BuildRelayMessage", "chain/icon/btp2/message.go: NewBlockUpdate, NewMessageProof", "chain/icon/sender.go: _relay, sendFragment", "javascore/bmv/btpblock/src/main/java/foundation/icon/btp/bmv/btpblock/BTPMessageVerifier.java: handleRelayMessage", "javascore/bmc/src/main/java/foundation/icon/btp/bmc/BTPMessageCenter.java: handleFragment")
P("The relay with the bridge receivers brings messages to the bridge verifiers",
  "A chain has blocks with messages; the trust-based receiver of an ICON chain or of an EVM chain is notified of them, the link builds relay messages, and the bridge verifier of the destination (Solidity or Java) checks them. If the relay starts where the verifier stands and each block is fetched, taken and handled before the next, then: from ICON, if every block notified has exactly one message, all messages arrive once and in order at both kinds of verifier; from an EVM chain, with at most one message per block, all messages arrive once and in order at the Solidity verifier. What arrives is stated exactly in the other cases too: from ICON the messages before the first block with several (only the last message of a block is ever sent, so everything after that block is refused); to a Java destination from an EVM chain only the messages numbered up to 127. A block without messages (ICON), two blocks arriving while the link is busy (ICON), two messages in one block (EVM) or one log that does not unpack (EVM) end the relay process; a relay started again turns in a loop without pause when the last block is notified again.",
  "all chains with climbing heights, all messages and logs, all offsets, all limits, all status reports at any time, all orders in which Go enumerates its maps, all contents of uninitialised memory",
  "Receivers, link and verifiers are in three languages; the receivers have no tests without a running node, and the link is tested with mocks.",
  "common/link/link.go: receiverChannel, BuildRelayMessage, buildProof, sendRelayMessage", "chain/icon/bridge/bridge.go: Monitoring, BuildBlockUpdate, BuildMessageProof, GetHeightForSeq", "chain/icon/bridge/message.go: NewMessageProof", "chain/ethbr/receiver.go: Monitoring, BuildMessageProof", "chain/ethbr/message.go: NewMessageProof", "solidity/bmv-bridge/contracts/BMV.sol: handleRelayMessage", "javascore/bmv/bridge/src/main/java/foundation/icon/btp/bmv/bridge/BTPMessageVerifier.java: handleRelayMessage")
P("The Python contracts read and write RLP and base64",
  "The Python contracts write a value (None, bytes, number, text, truth value, list) as the RLP of its item, numbers in the shortest two's complement, as long as every payload is shorter than 65536 bytes. The RLP of any item is read as a type exactly if the item has a value in this type, and as this value; so what was written is read back. Cut short anywhere or with bytes behind its end it is refused, and whatever the bytes are, the parts taken from them lie in them one behind the other. Bytes are written as base64 with the letters for URLs; every base64 text of some bytes is read as these bytes, with or without its padding. From 65536 bytes on the bytes of a length are written in disorder, and the payload is read back only if the two lower bytes of its length are equal.",
  "all values, types, items and byte strings, all places to cut, all texts; types with no dict inside a dict",
  "There are no tests of these two files; a payload of 65536 bytes does not occur in the examples.",
  "pyscore/lib/icon/rlp.py: rlp_encode, rlp_encode_bytes, rlp_encode_list_with_encoded, rlp_decode, rlp_decode_header, rlp_decode_part, from_bytes", "pyscore/lib/icon/base64.py: urlsafe_b64encode, urlsafe_b64decode, encode, decode, base64url_decode")
P("The accumulator of the Python contracts keeps the roots of the blocks",
  "Over the same hashes the Merkle tree accumulator of the Python contracts has the same height, offset and roots as the one of the Java contract, so its roots are those of perfect trees over the newest hashes, and its cache holds the newest. A witness that the relay makes for the current height is accepted; an accepted one shows that the hash is an entry of the tree of the root at the witness's length, and the entry of the height given if the height is one of that tree. For an earlier height a hash is accepted exactly if it is one of the last in the cache; as the block verifier sets it up only the current height is good. What is stored is read back as it was below 65536 bytes. For a later height, where that is allowed, the wrong place in the tree is used: the entry of a height is refused, another one or the root is accepted in its place.",
  "all lists of hashes, offsets, limits, cache sizes and settings, all witnesses, heights and hash functions (or a collision is exhibited)",
  "The file has no tests; the differences to the other implementations show only with certain heights, and a bad index is accepted for some.",
  "pyscore/lib/icon/mta.py: MerkleTreeAccumulator, add, verify, _verify, get_root, get_root_idx_by_height, has_cache, _put_cache, set_roots_size, set_cache_size, to_bytes", "javascore/bmv/icon/src/main/java/foundation/icon/btp/bmv/icon/MerkleTreeAccumulator.java: add, verify", "common/mta/accumulator.go: WitnessFor")
P("Proofs of inclusion checked by the Python contracts",
  "The proof made of the nodes on the way to a value in a Patricia tree, without those that a branch contains, is accepted by the Python contracts. Whatever is accepted under the root of a tree is what the tree has for the key, unless the key is a proper prefix of one of the tree's keys; for the trees of receipts and event logs, keyed by encoded indexes, it is exactly the tree's value, the same as the one the Java verifier gives. Two accepted proofs for one root and key give the same. The value of a branch is given with its RLP header, and no proof leads through an extension that contains its child.",
  "all trees and ways of containing nodes, all keys, proofs and hash functions (or a collision is exhibited)",
  "Tests use receipts of one block, where nodes are named by hashes and values are in leaves.",
  "pyscore/lib/icon/mpt.py: MerklePatriciaTree, Node, prove, bytes_to_nibbles, match_nibbles", "pyscore/bmv/icon/message.py: ReceiptProof, EventProof")
P("Dictionaries and properties in the store of the Python contracts",
  "Over any sequence of operations and calls, a stored dictionary of the Python contracts gives what a dictionary with one entry per key in the order of insertion gives, provided no call removes a key that it has put in itself, keys have no comma, and no single key of at most one character is left at the end of a call. Properties are read back as set, in the same and in later calls, and have their default when never set, unset in an earlier call, or removed with all others. Removing a key that the same call has put in leaves it, a single short key is lost at the next call, removing all keys leaves every second, and a bool comes back as an int.",
  "all sequences of operations over any number of calls, all keys and values, nested or not",
  "Tests make a few insertions in one call and do not read the store again with a new object.",
  "pyscore/lib/icon/db.py: IterableDictDB, PropertiesDB, remove_all, _load_keys, _flush_keys", "pyscore/lib/const.py: Const")
P("The ICON block verifier of the Python contracts",
  "Block updates are accepted exactly when they form a chain of consecutive blocks, each certified by distinct votes of more than two thirds of the validators its predecessor named, over the bytes the other ICON block verifier asks for. Two contracts installed with the same validators know the same blocks as far as both go, unless more than a third of the validators of one block voted twice or the hash function collides; this holds after any calls since the installation. Messages are accepted only from the message center of the installation for its network. They are all the messages for it among the proved events, numbered without gap from the expected number on, and the events occur in trees of logs of receipts of one block the contract knows. What an honest relay sends is accepted. A message of the same contract for another center fails the call unless it has the number expected here, events without parameters cannot be read, and logs written in the receipt itself are never used.",
  "all calls, relay messages, validators, votes, trees of receipts, any hash function with 32-byte results, any signature recovery",
  "Tests relay recorded blocks of one chain with one pair of message centers.",
  "pyscore/bmv/icon/icon.py: handleRelayMessage, _last_receipt_hash, _check_accessible, on_install", "pyscore/bmv/icon/message.py: BlockHeader, Validators, Votes, BlockUpdate, BlockProof, EventLog, Receipt, EventProof, ReceiptProof, RelayMessage", "pyscore/lib/btp_address.py: BTPAddress")
P("The message center of the Python contracts",
  "Messages for a network go to the neighbour named by the route called as the network, else by the first route into it, else to the first link in it, else to the first link that reported it, provided that every text looked through is an address; sendMessage puts out one message for it and nothing else. After every history since the installation the messages for each neighbour are numbered 1, 2, ... from its linking on, nothing was sent to addresses never linked, and every link is the text of a complete address in another network with a verifier. A relay message counts, whole or not at all, for its link only; services are called for its messages in their order, each with the network, name, number and bytes of the message, errors with the number turned round. A message leads to the one passed on, or to the answer that names the failure, or to nothing. Messages are read as written. One message that cannot be taken, which anyone may send with the service name '_event', stops its link for good; messages for networks behind a neighbour are addressed to the neighbour, whose service takes them; answers that cannot be delivered are answered as ordinary messages; a route named by a plain network stops the search for all others; a neighbour may report for another one, and texts that are no addresses.",
  "all histories of calls, messages, services, verifiers' answers, routes and links",
  "Tests send single messages between two centers linked directly.",
  "pyscore/bmc/bmc.py: handleRelayMessage, _handle_msg, _resolve_route, _send_message, _send_error, sendMessage, _add_link, _remove_link, _propagate_event, _on_link, _on_unlink, addVerifier, removeVerifier, addService, addRoute", "pyscore/bmc/message.py: BTPMessage, ErrorMessage, EventMessage, SACKMessage", "pyscore/bmc/route.py: BTPRoutes, resolve", "pyscore/lib/btp_address.py: BTPAddress")
P("The turns of the relays of the Python message center",
  "Although link.py divides as floats, a division of integers below 2^53 rounds up exactly; a term is max_aggregation * block_interval_dst / block_interval_src blocks rounded up, or one more where this is an integer. Without messages the relay allowed at a height is the one whose turn it is, where turns of one term each go round the relays; at which heights the contract was called before does not matter, and each relay has its turn within any n terms. With messages too the turn ends at most a term from now and never goes back. Only relays of the link relay, where there are terms only the one found; in every history the index points at a relay, so some relay may always relay as soon as there is one, and nextRelays puts in place what getNextRelays announced. But the extra block is there; the height claimed with messages lets a relay choose whose turn it is; a link with terms and no relay takes nothing; removeRelay always fails, so relays stay for good, also those of removed relayers; anyone may make themself relayer and any address a relay; pending changes cannot be taken back.",
  "all links, parameters, heights, messages and histories of calls",
  "Tests rotate a link a few times with handy numbers; rounding of floats and all histories are out of their reach.",
  "pyscore/bmc/link.py: BTPLink, ceil, rotate_term, _rotate, rotate, add_relay, remove_relay, next_relays, get_next_relays", "pyscore/bmc/relayer.py: BTPRelayer, add_relay, remove_relay", "pyscore/bmc/bmc.py: handleRelayMessage, addRelayer, removeRelayer, addRelay, removeRelay, nextRelays, setLink")
P("The permissions of the Python message center",
  "A method with a permission is passed exactly by those who hold it, or who have no entry and call for an origin that holds it, and by everybody while access control is off. In every history since the installation only known names are stored; a grant gives exactly the permissions it lists to its address, a removal takes away only what it lists and all of it where each is there once; nobody gets a permission but by the call of someone who may grant, or loses it but by the call of someone who may take it (registering and removing services included), and only the owner switches access control. But setLink and nextRelays ask for permissions that cannot be granted; with access control on and nobody to grant, nobody gets a permission any more; an address whose last permission is taken away never gets one again, so that a removed service never comes back at its address, even without access control; a permission listed twice survives its removal.",
  "all histories of calls, senders, origins, addresses and texts",
  "Tests grant and remove a permission once, mostly with access control off.",
  "pyscore/bmc/permission.py: Permission, is_valid, merge, remove, from_string, from_string_with_validation", "pyscore/bmc/bmc.py: setAccessControl, _has_permission, addPermission, removePermission, addService, removeService, _is_exists_service_by_addr")
P("What the Python token service holds, locks and gives back",
  "In every history since the installation: a call goes through exactly in the listed cases and does what the case says, a refused one changes nothing; what is locked for a user and token is exactly the sum of their open transfers; what users can use is never below zero if requests give and do not take, and gets less only by their own reclaim or transfer or by a request below zero; all balances of a token together are the deposits and requests less what was paid out and delivered; transfers are numbered 1, 2, 3 ..., each ends by at most one answer and never opens again; only the owner registers, only the center brings messages, and the token of a name never changes; without requests of others, what is held covers all that can be reclaimed. But unregister leaves the token in use and its name lost for ever; an answer of any network settles a transfer; a request below zero takes from any account; requests let deposits be taken by others; the answer to an unknown message is itself unknown, so two of these contracts exchange it for ever; a transfer of 0 to a text that is no address is sent and raises at the other side; a token under the empty name takes no deposits.",
  "all histories of calls, users, names, networks, numbers and values",
  "Tests transfer once between two contracts; the sums, the numbering and who can lower a balance are about every history.",
  "pyscore/token/token_bsh.py: register, unregister, tokenFallback, reclaim, transfer, handleBTPMessage, handleBTPError, _update_balance_by, _put_pending")
P("Two Python token services together make no tokens",
  "In every history of two token services whose messages to each other arrive at most once and in any order, or are reported back, with any calls of anybody and transfers to third networks: both together have of every name exactly what deposits and reclaims brought, a delivered transfer counting twice until its answer is back; what all users of both can use is never more than deposits less reclaims. If transfers go between the two only, every open transfer is on the way exactly once, as a request or as an answer, and once everything has arrived nothing is locked and exactly deposits less reclaims can be used. But the sum says nothing about one of them: at the second contract more can be reclaimed than ever came in there; and a transfer to a network that does not answer is locked for ever.",
  "all histories of calls, deliveries in any order, reports of failure, users, names and values",
  "Tests send one transfer and its answer in order; sums over two contracts and messages in any order are about all interleavings.",
  "pyscore/token/token_bsh.py: tokenFallback, reclaim, transfer, handleBTPMessage, handleBTPError, _send_message")
P("The sample token and the Python token service pay what they owe although receivers call back",
  "The token is installed exactly for a supply not below zero and 0 to 21 decimals, all of it with one holder. In every history of transfers of the token and calls of the service, where a contract that receives tokens may call the token and the service before it returns, to any depth: the supply stays the same, no balance is below zero, nobody but the service loses tokens without sending them themselves, and the token holds for the service exactly what it took in less what it paid out. Tokens sent to the service are taken exactly when it knows the token and belong to the sender there. Without requests of other networks what the users have in the service is covered by its tokens, so a reclaim that the service allows is paid unless the receiver refuses it. But with requests the token refuses what the service allows; a contract that does not take tokens can deposit and never reclaim; and tokens given to the service when the token is installed are never paid out.",
  "all histories of transfers, reclaims and other calls with calls back of receiving contracts nested to any depth, all users, names and values",
  "Tests transfer to plain accounts; what holds with receivers that call back at any depth is about all trees of calls.",
  "pyscore/token/sample/irc2/irc2_token.py: on_install, transfer, _transfer, balanceOf; pyscore/token/token_bsh.py: tokenFallback, reclaim")
P("The sample multi token moves just what it is told and its events tell all",
  "In every history of calls by anybody: a transfer goes through exactly when it does not go to the zero address, the caller is the holder or approved by them, and it is covered; a batch exactly when all of it together is covered, ids being repeated or not, and can be written into an event; both move just that. Every balance is what replaying the events gives and none is below zero; approvals are as the last event says. All there is of a token is what its one mint made less what was burned; an id is minted at most once and its creator, who alone sets its URI, never changes. Nobody's tokens get less but by their own call or that of somebody they approved. All of this holds as well when receiving contracts call the token before they return, to any depth.",
  "all histories of calls, users, ids and values, batches of any length, calls of receivers nested to any depth",
  "Tests move a few tokens; the replay of all events, repeated ids in batches and receivers that call back are about all histories.",
  "javascore/fee-aggregation/SampleMultiToken/token/irc31_basic.py: transferFrom, transferFromBatch, setApprovalForAll, isApprovedForAll, _mint, _burn; javascore/fee-aggregation/SampleMultiToken/token/irc31_mintburn.py: mint, burn, setTokenURI")
P("Lists of numbers in the batch events of the sample multi token",
  "A list of numbers from 0 to 2^53 - 1 is written as the RLP of these numbers, however long. But the number is divided with floating point: from 2^53 on another number may be written (2^53 + 255 as 2^53 + 511, and amounts of a token with 18 decimals are hit), and two different numbers may be written alike; ids below zero, which can be minted, are written as other ids that exist, so that the events of two batches are the same although different tokens moved; and a value that does not fit in a double can be transferred alone and not in a batch.",
  "all lists of numbers, of any length up to 2^48",
  "Tests use small numbers; the loss in the division starts at 2^53 and depends on the rounding of doubles.",
  "javascore/fee-aggregation/SampleMultiToken/util/rlp.py: rlp_encode_list, rlp_encode_bytes, rlp_encode_length, int_to_bytes; javascore/fee-aggregation/SampleMultiToken/token/irc31_basic.py: transferFromBatch")
P("The fund contract keeps to its limit and accounts for every coin",
  "In every history of calls by anybody, with contracts that call back when they are paid: the balance is what came in less what was burned and sent and is never below zero or above the largest limit there ever was; the recorded budget of a proposal is what was sent for it less what was sent back; a proposal is paid first exactly once. Money is sent exactly when the contract the owner registered asks for it with a budget not below zero that is covered with its reward of two hundredths rounded down, and only to the registered treasury. A call that brings coins succeeds whenever the limit is not below zero and leaves the smaller of the limit and all there is. Only the owner sets limit and contracts. Reading the proposals in pages of at most fifty gives each once. The budget can fall below zero and a disqualified proposal can be paid again.",
  "all histories of calls, owners, limits, proposals and amounts, calls back nested to any depth, pages of all sizes",
  "The tests make single calls with mocked balances; the ledger and the limit are about all histories and contracts that call back.",
  "javascore/fee-aggregation/CPFTreasury/cpf_treasury.py: add_fund, return_fund_amount, disqualify_proposal_fund, transfer_proposal_fund_to_cps_treasury, update_proposal_fund, _burn_extra_fund, _burn, set_maximum_treasury_fund, set_cps_score, set_cps_treasury_score, get_proposals_details")
P("Rollback data of the sample of the call service comes back as it was sent",
  "In every history, with a call service that makes calls before it answers: the contract holds just the rollback data that is waiting, each under an id given out once; what comes back in Java is data that waits, as it was sent, with the number the call service gave, and at most once; in Solidity it is waiting data up to the hash, or empty data under an id that has none. Waiting data that the call service brings back is taken. Nobody but the call service can bring anything; other messages are passed on as they are unless they ask for a revert. Data that comes back before the call service has answered is refused. In Solidity empty data under ids that were never given out is taken, again and again.",
  "all histories of messages, ids and data, calls of the call service nested to any depth, all encodings and hashes",
  "The end to end tests send one message with and one without rollback; unknown ids, repeated delivery and calls before the answer are not tried.",
  "e2edemo/dapp-sample/src/main/java/foundation/icon/btp/xcall/sample/DAppProxySample.java: sendMessage, handleCallMessage, getNextId; e2edemo/dapp-sample/src/main/java/foundation/icon/btp/xcall/sample/RollbackData.java: equals; e2edemo/solidity/contracts/dapp-sample/DAppProxySample.sol: sendMessage, handleCallMessage, compareTo")
P("Text helpers of the contracts: hexadecimal text, searching, splitting and case",
  "The three functions that write bytes as hexadecimal text agree and what they write is read back; hexadecimal text of even length is read and, written again, is the text in lower case; text of odd length is refused. Searching gives the first position from the offset on, or none. Splitting gives the text between the delimiters unless the last character stands alone behind a delimiter: then it is lost; a text of one character gives an empty text and an empty text panics. Taking a BTP address apart finds its network and its account, whatever stands for the scheme, but takes an account of one character as empty. Lower case changes only A to Z. Camel case leaves out the underscores and writes each word with a capital letter followed by small ones; the lower camel case is the same text as the camel case. Characters that are no hexadecimal digits are read as bytes all the same.",
  "all texts, bytes, delimiters and offsets",
  "The tests take apart well formed addresses with long accounts and read valid hexadecimal text; short last parts and other characters are not tried.",
  "solidity/bmc/contracts/libraries/Strings.sol: bytesToHex, _indexOf, split, lower; solidity/bmv/contracts/libraries/String.sol: splitBTPAddress, split; solidity/bmv-bridge/contracts/libraries/Strings.sol: bytesToHex; javascore/score-util/src/main/java/foundation/icon/score/util/StringUtil.java: bytesToHex, hexToBytes, tokenize, toCamelCase, toLowerCamelCase")
P("The price feed of the fee aggregation gives the last rates its owner sent",
  "In every history: a relay is taken just when the owner sent it with four lists of one length, and the events tell just what was taken, in order. A symbol other than USD has the rate, number and time (in microseconds) of its last update, and no data without one; USD is always one and of now. The rate of a pair is the quotient of the two rates with 18 digits rounded down; it is missing when a symbol has no data or the rate of the quote is 0. There and back never gains, and a symbol against itself is one. In bulk every pair is as it is alone, in order, or nothing is given. An update with an older time replaces a newer one, and an update of USD is told in an event although it is never used.",
  "all histories of relays by anyone, all symbols, rates and times",
  "The integration tests of the auction relay two lists of good rates as the owner; other callers, uneven lists, rates of 0 and older times are not tried.",
  "javascore/fee-aggregation/bandProtocol/std_reference_basic.py: _get_ref_data, _get_reference_data, get_reference_data_bulk, _set_refs, relay")
with open(os.path.join(os.path.dirname(__file__), "..", "properties.jsonl"), "w") as f:
    for r in rows:
        f.write(json.dumps(r, ensure_ascii=False) + "\n")
print(len(rows))
