{"id": "C01", "title": "TLV numbers round-trip and are self-delimiting", "statement": "Encoding any 64-bit Type or Length number with TLNum.EncodeInto writes exactly TLNum.EncodingLength() bytes; ParseTLNum and ReadTLNum applied to those bytes followed by any other bytes return the same number and consume exactly those bytes. Consequently no encoding is a proper prefix of another one.", "quantifier": "every uint64 value and every byte string that follows it in the buffer", "why_tests_cant": "2^64 values times arbitrary suffixes; the boundaries 0xfc/0xfd, 0xffff, 0xffffffff can be probed but the absence of any other failing value cannot.", "anchors": ["pkg/encoding/primitives.go: TLNum.EncodingLength, TLNum.EncodeInto, ParseTLNum, ReadTLNum"]}
{"id": "C02", "title": "Truncated TLV numbers are reported, never misread", "statement": "ReadTLNum on a strict prefix of a number's encoding fails: with io.EOF when nothing at all is left and with io.ErrUnexpectedEOF when the number is cut in the middle. It never returns a number, and it never panics.", "quantifier": "every uint64 value and every strict prefix of its encoding", "why_tests_cant": "The set of truncations of all encodings is unbounded in combination with the reader state.", "anchors": ["pkg/encoding/primitives.go: ReadTLNum", "pkg/encoding/readers.go: BufferReader.ReadByte"]}
{"id": "C03", "title": "Natural numbers round-trip", "statement": "Nat(x).Bytes() has length 1, 2, 4 or 8 and is the shortest of those that can hold x, ParseNat of it returns x, and ParseNat accepts a byte string iff its length is 1, 2, 4 or 8, returning its big-endian value.", "quantifier": "every uint64 x; every byte string", "why_tests_cant": "Full 64-bit range and all byte strings.", "anchors": ["pkg/encoding/primitives.go: Nat.EncodingLength, Nat.EncodeInto, Nat.Bytes, ParseNat"]}
{"id": "C04", "title": "ShrinkLength only changes the length", "statement": "For a buffer that starts with a Type and a Length L followed by value bytes and any shrink < L, ShrinkLength returns a buffer that starts with the same Type and Length L-shrink followed by exactly the same remaining bytes.", "quantifier": "every type number, every length, every shrink amount and every remaining content, provided Type and Length are minimally encoded", "why_tests_cant": "The header may or may not move depending on the width of both lengths; a test can only sample.", "anchors": ["pkg/encoding/primitives.go: ShrinkLength"]}
{"id": "C05", "title": "Name component binary round-trip", "statement": "ComponentFromBytes(c.Bytes()) returns c with the same type and value, and Component.EncodingLength is the number of bytes Bytes produces. (False for values of 253 bytes or more: the length is written as a plain natural number instead of a TLV length.)", "quantifier": "every component type and every component value of any length", "why_tests_cant": "Unbounded value lengths; unit tests use short components and miss the encoding switch at 253.", "anchors": ["pkg/encoding/name_component.go: Component.EncodingLength, Component.EncodeInto, Component.Bytes, ComponentFromBytes, ReadComponent"]}
{"id": "C06", "title": "Name binary round-trip", "statement": "NameFromBytes(n.Bytes()) returns n, component by component. (Holds when every component value and the whole encoded name are shorter than 253 bytes, fails otherwise.)", "quantifier": "every name: any number of components of any type and value", "why_tests_cant": "Unbounded number and size of components.", "anchors": ["pkg/encoding/name_pattern.go: Name.Bytes, Name.EncodeInto, Name.EncodingLength, ReadName, NameFromBytes"]}
{"id": "C07", "title": "Name order is the canonical total order", "statement": "Component.Compare and Name.Compare are total orders (reflexive, antisymmetric, transitive, total), return only -1, 0 and 1, agree with Equal (result 0 iff Equal iff same types and bytes), a strict prefix is smaller than its extensions, and for names whose components are all shorter than 253 bytes Name.Compare orders names exactly as bytes.Compare orders their encodings without outer header.", "quantifier": "all pairs and triples of names and components", "why_tests_cant": "Order axioms quantify over all triples.", "anchors": ["pkg/encoding/name_component.go: Component.Compare, Component.Equal", "pkg/encoding/name_pattern.go: Name.Compare, Name.Equal"]}
{"id": "C08", "title": "IsPrefix is the prefix relation", "statement": "n.IsPrefix(m) is true iff m consists of the components of n followed by further components; it is a partial order and agrees with Equal when both directions hold.", "quantifier": "all pairs of names", "why_tests_cant": "All pairs of unbounded lists.", "anchors": ["pkg/encoding/name_pattern.go: Name.IsPrefix"]}
{"id": "C09", "title": "Component and name URI round-trip", "statement": "ComponentFromStr(c.CanonicalString()) = c for every component type 1..65535 and every value; NameFromStr(n.String()) = n for names whose typed-number components (seg, off, v, t, seq) hold a shortest-form number.", "quantifier": "every component/name of the given class, including arbitrary bytes that need escaping and empty components anywhere", "why_tests_cant": "Arbitrary byte values, positions of empty components and types.", "anchors": ["pkg/encoding/name_component.go: Component.String, Component.CanonicalString, ComponentFromStr, componentFromStrInto", "pkg/encoding/name_pattern.go: Name.String, NameFromStr"]}
{"id": "C10", "title": "Name String() identifies the name", "statement": "Two different names never have the same String(). The forwarding and pending-Interest tables rely on this because they use String() of components as keys. (False: seg/off/v/t/seq values are rendered as numbers, so different byte strings collide.)", "quantifier": "all pairs of names", "why_tests_cant": "Pairs of unbounded byte strings.", "anchors": ["pkg/encoding/name_component.go: Component.String, compValFmtDec.ToString", "pkg/engine/basic/simple_trie.go: NameTrie.MatchAlways, ExactMatch, PrefixMatch"]}
{"id": "C11", "title": "Text parsers never crash", "statement": "ComponentFromStr, ComponentPatternFromStr, NameFromStr and NamePatternFromStr return a value or an error for every input string and never panic. (False for '=x', '<=x>' and the empty pattern.)", "quantifier": "every input string", "why_tests_cant": "All strings.", "anchors": ["pkg/encoding/name_component.go: parseCompTypeFromStr, componentFromStrInto, ComponentPatternFromStr", "pkg/encoding/name_pattern.go: NameFromStr, NamePatternFromStr"]}
{"id": "C12", "title": "Pattern matching and instantiation are inverse", "statement": "If every element of a name pattern IsMatch the corresponding component of a name, and no tag is used for two components with different values, then FromMatching of the matching produced by Match gives the name back; and conversely the name built by FromMatching matches the pattern element-wise.", "quantifier": "every name pattern, every name and every prior content of the matching", "why_tests_cant": "Unbounded patterns, repeated tags.", "anchors": ["pkg/encoding/name_component.go: Pattern.Match, Pattern.IsMatch, Pattern.FromMatching", "pkg/encoding/name_pattern.go: NamePattern.Match, NamePattern.FromMatching"]}
{"id": "C13", "title": "Different names have different hash inputs", "statement": "Name.Hash and Name.PrefixHash feed the hash function with byte streams that determine the name, so equal hashes can only come from a collision of xxhash itself. (False: the stream has no length delimiters, so a one-component name can feed the same bytes as a two-component name.)", "quantifier": "all pairs of names, for any hash function", "why_tests_cant": "Pairs of names; independent of the hash function.", "anchors": ["pkg/encoding/name_component.go: Component.HashInto", "pkg/encoding/name_pattern.go: Name.Hash, PrefixHash"]}
{"id": "C14", "title": "A fragmented wire reads like the joined buffer", "statement": "Any sequence of ReadByte, UnreadByte, ReadBuf, ReadWire, Skip, Pos, Length and Delegate calls gives the same results on NewWireReader(w) as on NewBufferReader(w.Join()), for wires without empty buffers and in-range arguments; Range denotes the same bytes. (Range, empty buffers and zero-length reads at the end are wrong in the code.)", "quantifier": "every fragmentation of every byte string and every sequence of calls", "why_tests_cant": "Fragmentations times call sequences.", "anchors": ["pkg/encoding/readers.go: WireReader.*, BufferReader.*", "pkg/encoding/types.go: ParseReader, Wire.Join"]}
{"id": "C15", "title": "Generated encoders compute the exact length", "statement": "For every model description and value, the length computed by a generated encoder is exactly the number of bytes it writes, and the buffer sizes announced by the wire plan are exactly filled, so encoding never panics with index out of range and never leaves unwritten bytes. (A nocopy value with nothing to encode is excluded: its encoder panics.)", "quantifier": "every TLV model built from the supported field kinds (nested arbitrarily) and every value of it that, for a nocopy model, has an element to encode", "why_tests_cant": "Unbounded nesting, sequences and values.", "anchors": ["pkg/encoding/codegen/model.go", "pkg/encoding/codegen/fields_*.go: GenEncodingLength, GenEncodeInto, GenEncodingWirePlan", "pkg/ndn/spec_2022/zz_generated.go"]}
{"id": "C16", "title": "Generated codecs round-trip", "statement": "Parsing the encoding of a value with the parser generated from the same model returns that value (times truncated to milliseconds, byte sequences possibly divided into other buffers), for every model in the library (packets, signature info, NFD management, sync state vectors, RDR metadata and manifest, encrypted content, certificates), from one contiguous buffer; and, for models without signature ranges (all but Interest and Data), also from any division of the encoding into non-empty buffers if no name has an empty component. (False for ndncert ProbeRes, whose MaxSuffixLength field has type number 0 and no case in the parser.)", "quantifier": "every model with distinct non-zero field types (the library's are all shown to be in this class, except ProbeRes) and every value in the range of its Go types whose names have components shorter than 253 bytes and whose encoding is shorter than 2^43 bytes", "why_tests_cant": "Unbounded structures.", "anchors": ["pkg/encoding/codegen/model.go", "pkg/encoding/codegen/fields_*.go", "pkg/ndn/spec_2022/definitions.go", "pkg/ndn/mgmt_2022/definitions.go", "pkg/sync/tlv.go", "pkg/schema/svs/tlv.go", "pkg/schema/rdr/tlv.go", "pkg/schema/demosec/tlv.go"]}
{"id": "C17", "title": "Unknown non-critical elements are skipped, critical ones rejected", "statement": "Inserting an element with an unrecognized even type number above 31 anywhere between the elements of an encoding does not change the parsed value; inserting an unrecognized critical element makes the parser return ErrUnrecognizedField unless ignoreCritical is set. (False for ordered models such as Data and Interest.)", "quantifier": "every unordered model, value, insertion position and unrecognized element", "why_tests_cant": "Positions and elements are unbounded.", "anchors": ["pkg/encoding/codegen/model.go: parse loop template", "pkg/ndn/spec_2022/zz_generated.go"]}
{"id": "C18", "title": "Parsers are total", "statement": "Parsing any byte string with any generated parser terminates with a value or an error: no panic, no endless loop. ReadPacket's documentation promises that it does not crash. (False: lengths of 2^63 and more move the reader backwards or allocate huge buffers.)", "quantifier": "every byte string", "why_tests_cant": "All inputs.", "anchors": ["pkg/encoding/codegen/model.go", "pkg/encoding/codegen/fields_*.go: GenReadFrom", "pkg/encoding/readers.go: BufferReader.Skip, ReadBuf", "pkg/ndn/spec_2022/spec.go: ReadPacket"]}
{"id": "C19", "title": "MakeData/ReadData round-trip", "statement": "Data produced by MakeData for a name, config and content and any signer whose signature fits its estimate is parsed by ReadData into the same name, content type, freshness, final block id, content, signature info and signature value. (False for estimates of 253 and more when the length of the signature does not share the estimate's high byte, and for name components of more than 252 bytes.)", "quantifier": "every valid name, config, content fragmentation, signer behaviour", "why_tests_cant": "Unbounded inputs and signer outputs of any length up to the estimate.", "anchors": ["pkg/ndn/spec_2022/spec.go: MakeData, ReadData", "pkg/ndn/spec_2022/definitions.go: Data, MetaInfo, SignatureInfo"]}
{"id": "C20", "title": "Signed portion is the same on both sides", "statement": "The bytes handed to the signer by MakeData (MakeInterest) are exactly the bytes ReadData (ReadInterest) reports as covered by the signature, so a correct signature always verifies.", "quantifier": "every packet made by MakeData/MakeInterest", "why_tests_cant": "All packets, all fragmentations.", "anchors": ["pkg/ndn/spec_2022/spec.go: MakeData, MakeInterest, ReadData, ReadInterest", "pkg/encoding/codegen/signature.go"]}
{"id": "C21", "title": "MakeInterest/ReadInterest round-trip with valid parameters digest", "statement": "Interest produced by MakeInterest is accepted by ReadInterest, which returns the same selectors, lifetime, nonce, hop limit, forwarding hint, application parameters and signature; the final name is the given name plus, iff there are application parameters, the SHA-256 digest component. (False for names that already end with a digest component: it is dropped.)", "quantifier": "every valid name, config, parameters, signer", "why_tests_cant": "Unbounded inputs.", "anchors": ["pkg/ndn/spec_2022/spec.go: MakeInterest, ReadInterest, checkInterest"]}
{"id": "C22", "title": "Interests with a wrong parameters digest are rejected", "statement": "ReadInterest/ReadPacket accept an Interest with ApplicationParameters only if its name ends with a ParametersSha256Digest component equal to the SHA-256 of the bytes from ApplicationParameters to the end; changing any of those bytes makes it rejected unless SHA-256 collides. (False: eight unknown non-critical elements before the parameters make the covered range empty.)", "quantifier": "every Interest byte string", "why_tests_cant": "All modifications of all packets.", "anchors": ["pkg/ndn/spec_2022/spec.go: checkInterest, ReadInterest, ReadPacket"]}
{"id": "C23", "title": "Priority queue pops in order", "statement": "After any sequence of Push, Pop and Update, Peek/PeekPriority/Pop give an element of minimal priority among those pushed (with their updated priorities) and not popped; Len is their number; no element is lost or duplicated.", "quantifier": "every operation history", "why_tests_cant": "Histories are unbounded.", "anchors": ["pkg/utils/heap/heap.go", "pkg/utils/priority_queue/priority-queue.go"]}
{"id": "C24", "title": "Name trie is a finite map on names", "statement": "ExactMatch after any history of MatchAlways/SetValue/Delete/DeleteIf operations returns the node of exactly that name (as identified by its component strings) if it exists; PrefixMatch returns the node of the longest existing prefix.", "quantifier": "every operation history and every queried name", "why_tests_cant": "Histories.", "anchors": ["pkg/engine/basic/simple_trie.go"]}
{"id": "C25", "title": "Every expressed Interest gets exactly one callback", "statement": "After Express succeeds, the callback is invoked at most once, whatever Data, Nack and timer events follow and in whatever order; and it is invoked (with Data, Nack or Timeout) once the timer of the Interest fires. (Fails for the Nack/timer race; entries orphaned in the trie only get Timeout.)", "quantifier": "every history of Express, incoming packets and timer events", "why_tests_cant": "All interleavings.", "anchors": ["pkg/engine/basic/default_engine.go: Express, onData, onNack"]}
{"id": "C26", "title": "Data satisfies exactly the matching pending Interests", "statement": "An incoming Data invokes the callbacks of precisely those pending Interests whose name equals the Data name, or is a prefix of it with CanBePrefix set, and whose implicit digest if any equals the SHA-256 of the Data; all other pending Interests stay pending. (False: a Data removes unrelated pending Interests below the matched node, and a Nack those for longer and shorter names.)", "quantifier": "every pending table reachable by any history and every Data", "why_tests_cant": "All histories and names.", "anchors": ["pkg/engine/basic/default_engine.go: onData", "pkg/engine/basic/simple_trie.go: PrefixMatch, DeleteIf"]}
{"id": "C27", "title": "Handlers are prefix-free and Interests go to the longest matching handler", "statement": "AttachHandler refuses a prefix iff a handler is attached at that prefix, above or below it; an incoming Interest is delivered to the unique attached handler whose prefix is a prefix of the Interest name, and to nobody if there is none; DetachHandler removes only the named handler.", "quantifier": "every history of AttachHandler/DetachHandler and every Interest", "why_tests_cant": "All histories.", "anchors": ["pkg/engine/basic/default_engine.go: AttachHandler, DetachHandler, onInterest", "pkg/engine/basic/simple_trie.go"]}
{"id": "C28", "title": "Replies respect deadline and link-layer token", "statement": "Reply of an incoming Interest sends nothing and reports an error after the deadline or when the engine is not running; otherwise it sends exactly the given Data, wrapped with the Interest's PIT token iff the Interest carried one; the default lifetime is 4 s.", "quantifier": "every Interest, every clock value and engine state", "why_tests_cant": "Time and inputs are unbounded.", "anchors": ["pkg/engine/basic/default_engine.go: onInterest"]}
{"id": "C29", "title": "Stream framing is independent of chunking", "statement": "A StreamFace whose onError stops at errors hands to the packet callback exactly the sequence of top-level TLV elements (numbers in shortest form, as NDN requires, and size below 2^48) that were sent into the stream, in order, byte for byte, however the sender splits them into buffers and the transport chunks the stream.", "quantifier": "every sequence of packets and every chunking of their concatenation", "why_tests_cant": "Chunkings are exponential.", "anchors": ["pkg/engine/basic/transports.go: StreamFace.Run, StreamFace.Send"]}
{"id": "C30", "title": "Dummy timer fires events in time, once, in virtual-time order", "statement": "With the dummy timer, an event scheduled with delay d runs during the first MoveForward that makes the clock exceed its due time, and never otherwise, at most once, and not after a successful cancel. (False for events scheduled or cancelled by a callback during MoveForward and for stale cancels.)", "quantifier": "every history of Schedule, cancel and MoveForward", "why_tests_cant": "All histories and re-entrant callbacks.", "anchors": ["pkg/engine/dummy/timer.go"]}
{"id": "C31", "title": "Dummy face is a FIFO", "statement": "Packets sent through a DummyFace are consumed in order and unmodified (fragments joined); Consume fails iff nothing is queued; sending on a closed face fails and changes nothing.", "quantifier": "every history of Open, Close, Send, Consume", "why_tests_cant": "All histories.", "anchors": ["pkg/engine/dummy/transports.go"]}
{"id": "C32", "title": "Sync state never goes backwards", "statement": "The sequence number known for a node never decreases under received sync Interests, SetSeqNo and IncrSeqNo, except for the 2^64 wrap-around of IncrSeqNo; SetSeqNo succeeds only with a greater number.", "quantifier": "every history of local operations and received state vectors", "why_tests_cant": "All histories.", "anchors": ["pkg/sync/svs.go: SetSeqNo, IncrSeqNo, onReceiveStateVector, GetSeqNo"]}
{"id": "C33", "title": "Every missing publication is announced exactly once", "statement": "The ranges [Low, High] passed to the update callback for a node are disjoint, contiguous and together cover exactly the numbers between the first and the last known sequence number learned from the network.", "quantifier": "every sequence of received state vectors interleaved with local operations", "why_tests_cant": "All histories.", "anchors": ["pkg/sync/svs.go: onReceiveStateVector"]}
{"id": "C34", "title": "Sync suppression never loses newer state", "statement": "When a node in suppression times out it sends its state vector iff it knows something that the vectors received during the suppression do not contain.", "quantifier": "every sequence of vectors received during a suppression period", "why_tests_cant": "All histories. (The vector that started the suppression is not merged.)", "anchors": ["pkg/sync/svs.go: onReceiveStateVector, timerExpired, enterSteadyState"]}
{"id": "C35", "title": "Sync converges", "statement": "Whenever every participant's vector eventually reaches every other participant, in any order with duplicates and losses of other messages, all participants hold the component-wise maximum; merging vectors is commutative, associative and idempotent.", "quantifier": "any number of participants and any delivery order", "why_tests_cant": "All schedules.", "anchors": ["pkg/sync/svs.go"]}
{"id": "C36", "title": "Schema tree matching", "statement": "Match of a name against the tree returns a node whose path pattern matches the name element-wise (trailing digests aside) and, if no tag stands for two different components, the matching that instantiates the path to the name; which node is returned is determined: at every level the first child that fits, without backtracking. Apply succeeds iff every variable of the path has a value and yields a name that matches the path of the node; Refine continues a match exactly as Match would.", "quantifier": "every tree and every name", "why_tests_cant": "All trees.", "anchors": ["pkg/schema/base_node.go: Match, ContinueMatch, Apply", "pkg/schema/tree.go"]}
{"id": "C37", "title": "Segmentation and reassembly are inverse", "statement": "Splitting content with SegmentedNode.Provide yields segments of SegmentSize bytes (the last possibly shorter) numbered from 0 whose concatenation is the content, all carrying the last number as FinalBlockId; fetching those segments in order reassembles the content. (False when the content contains an empty buffer: the tail is lost.)", "quantifier": "every content fragmentation and every segment size", "why_tests_cant": "All fragmentations.", "anchors": ["pkg/schema/rdr/rdr.go: SegmentedNode.Provide, SinglePacketPipeline"]}
{"id": "C38", "title": "Validation chain accepts iff some validator passes and none fails before", "statement": "A fetched Data is delivered with status Data iff running the validators in order yields a pass and no failure before the first bypass; otherwise it is delivered without content as Unverified, and it is cached only if accepted. (False in one direction: a validator without opinion after one that passes makes the Data unverified.)", "quantifier": "every list of validators and verdicts", "why_tests_cant": "Unbounded chains.", "anchors": ["pkg/schema/expressing_point.go: NeedCallback, OnInterest", "pkg/schema/event.go: DispatchUntil"]}
{"id": "C39", "title": "Memory storage returns only stored, fresh, matching data", "statement": "MemStoragePolicy.Get returns nil or data previously Put under the requested name or below it (only if CanBePrefix), never stale data when freshness is requested, and the data last Put under the exact name if that is eligible.", "quantifier": "every history of Put and every query", "why_tests_cant": "All histories. (CanBePrefix is ignored by the code.)", "anchors": ["pkg/schema/basic_policies.go: MemStoragePolicy.Get, Put", "pkg/engine/basic/simple_trie.go: FirstNodeIf"]}
{"id": "C40", "title": "Own signatures verify", "statement": "Data signed by each signer of the library is accepted by the corresponding validator with the matching key, and only with the signature type announced. (False for the RSA signer, which announces ECDSA.)", "quantifier": "every covered byte string and key, with the cryptographic primitive abstracted by its correctness law", "why_tests_cant": "All messages and keys.", "anchors": ["pkg/security/*.go"]}
{"id": "C41", "title": "Signers do not disclose the key", "statement": "No field of the SignatureInfo produced by a signer depends on the secret key bits. (False for the HMAC Interest signer, which uses the raw key as key locator name.)", "quantifier": "every key", "why_tests_cant": "Non-interference over all keys.", "anchors": ["pkg/security/hmac-signer.go"]}
{"id": "C42", "title": "Need calls back exactly once", "statement": "ExpressPoint.NeedCallback invokes the callback exactly once on each path (storage hit, encoding failure, suppression, express failure, Data, Nack, timeout, validation failure). (False when sending fails: the callback is called at once and again when the Interest times out, which crashes NeedChan; and with Nacks.)", "quantifier": "every storage answer, signer choice, engine outcome and validator verdict", "why_tests_cant": "All combinations.", "anchors": ["pkg/schema/expressing_point.go: NeedCallback"]}
{"id": "C43", "title": "Encrypted content round-trip", "statement": "Decrypt(Encrypt(content)) returns the content byte for byte, for any length, given the same content key and a block cipher whose decryption inverts encryption.", "quantifier": "every content fragmentation, key, IV", "why_tests_cant": "All contents; padding boundaries.", "anchors": ["pkg/schema/demosec/encryption.go"]}
{"id": "C44", "title": "Shared document stays a well-formed list and local edits appear", "statement": "The CRDT document keeps a doubly linked list without loss or duplication; every accepted item appears exactly once, after its origin and before its right origin, and the order of items never changes; deletion only hides the item; an edit at an offset changes the visible text there; new local items get new identifiers. (False in part: a remote insertion crashes the program if an item without origin follows its origin; an item whose right origin lies left of its origin is not before it; offsets are off by one once the first item was deleted; a remote clock of 2^64-1 makes local identifiers repeat.)", "quantifier": "every history of local and remote operations", "why_tests_cant": "All histories.", "anchors": ["examples/schema-test/shared-doc/crdt/crdt.go"]}
{"id": "C45", "title": "Parsed components have a valid type", "statement": "Every component returned by ComponentFromStr or inside a name returned by NameFromStr has a type between 1 and 65535. (False: types of 2^63 and more pass the range check because it is done on a signed integer.)", "quantifier": "every input string", "why_tests_cant": "All strings; the bad ones are huge decimal numbers no test uses.", "anchors": ["pkg/encoding/name_component.go: componentFromStrInto"]}
{"id": "C46", "title": "Name pattern text round-trip", "statement": "NamePatternFromStr(p.String()) = p for every pattern whose tags contain neither '=' nor '/' and whose fixed components satisfy the condition of C09. (False when the last element is an empty generic component.)", "quantifier": "every name pattern of the class", "why_tests_cant": "All patterns and tags.", "anchors": ["pkg/encoding/name_pattern.go: NamePattern.String, NamePatternFromStr", "pkg/encoding/name_component.go: ComponentPatternFromStr, Pattern.String"]}
{"id": "C47", "title": "Packets are in the NDN format", "statement": "The bytes returned by MakeData and MakeInterest are exactly those of the NDN packet format: the elements Name, MetaInfo, Content, SignatureInfo, SignatureValue (Data) or Name, CanBePrefix, MustBeFresh, ForwardingHint, Nonce, InterestLifetime, HopLimit, ApplicationParameters, InterestSignatureInfo, InterestSignatureValue, each present iff given, in this order, with the standard type numbers, shortest-form lengths and network-order numbers.", "quantifier": "every name, configuration, payload fragmentation and signer", "why_tests_cant": "All packets: another implementation must be able to read each of them.", "anchors": ["pkg/ndn/spec_2022/spec.go: MakeData, MakeInterest", "pkg/ndn/spec_2022/definitions.go: Data, Interest"]}
{"id": "C48", "title": "Received packets are handled for what they are", "statement": "A Data packet, bare or in a link-layer packet, is given to the pending Interests it matches (with the digest of the Data packet itself); an Interest with a right parameters digest goes to its handler with its token, face, bytes and signed portion, one with a wrong digest is dropped; a Nack is reported to the Interests of its name; fragments, Nacks of Data and nested link-layer packets change nothing. (False for packets with a Data element before the Interest element, whose digest is not checked, and for Nacks with reason 0 or none.)", "quantifier": "every packet in the NDN / NDNLPv2 format and every engine state", "why_tests_cant": "All packets, headers and states.", "anchors": ["pkg/engine/basic/default_engine.go: onPacket, onInterest, onData, onNack", "pkg/ndn/spec_2022/spec.go: ReadPacket"]}
{"id": "C49", "title": "No received packet stops the engine", "statement": "Whatever bytes arrive and whatever the engine did before, handling them ends without panic or endless loop. (False: twelve bytes claiming a name of 2^60 bytes end the process.)", "quantifier": "every byte string, every history of the engine", "why_tests_cant": "All inputs: any peer can send anything.", "anchors": ["pkg/engine/basic/default_engine.go: onPacket", "pkg/encoding/readers.go"]}
{"id": "C50", "title": "A reply reaches the Interest", "statement": "If an engine receives an Interest for which it has a handler and the handler replies before the deadline with Data that matches a pending Interest of another engine, then what is sent satisfies that Interest when the other engine receives it, with or without link-layer token.", "quantifier": "every pair of engine states, Interest and Data packet (component values up to 252 bytes), token and clock value in time", "why_tests_cant": "All packets and states; both engines and the codec together.", "anchors": ["pkg/engine/basic/default_engine.go: onInterest, Reply, onPacket, onData"]}
{"id": "C51", "title": "A Sync Interest carries the sender's state", "statement": "The state vector sent by SvSync has one entry for each node with publications, with the number the sender knows, sorted in canonical order; it is encoded as the State Vector Sync format says, and a receiver decodes exactly this vector, however the parameters are fragmented.", "quantifier": "every history of the sender, every vector and fragmentation", "why_tests_cant": "All states; Go iterates over maps in random order, so each run of a test sees another order.", "anchors": ["pkg/sync/svs.go: encodeSv, sendSyncInterest, onSyncInterest", "pkg/sync/definitions.go"]}
{"id": "C52", "title": "Sync parameters from the network are harmless", "statement": "Whatever the application parameters of a Sync Interest are, onSyncInterest parses or ignores them without panic or endless loop. (False: a name that claims 2^63 bytes panics.)", "quantifier": "every byte string, every fragmentation", "why_tests_cant": "All inputs: any peer can send anything.", "anchors": ["pkg/sync/svs.go: onSyncInterest", "pkg/encoding/readers.go"]}
{"id": "C53", "title": "Stopping a synchroniser is safe", "statement": "Stop returns, and no panic follows, whatever happened before and whatever Sync Interests were being handled. (False: a goroutine that still holds a received vector sends it on the closed channel and panics; Stop before main runs waits.)", "quantifier": "every interleaving of arriving Sync Interests, their goroutines, main and Stop", "why_tests_cant": "All schedules: the race needs an Interest handled while Stop runs.", "anchors": ["pkg/sync/svs.go: Start, Stop, main, onSyncInterest"]}
{"id": "C54", "title": "Adding a schema node changes nothing else", "statement": "PutNode at a path of the tree succeeds iff there is no node yet (it panics otherwise); afterwards the new subtree is at this path, missing nodes on the way are base nodes, every other path has what it had, and every name that matched a node before matches the same node with the same values.", "quantifier": "every tree, path, subtree and name", "why_tests_cant": "All trees and paths.", "anchors": ["pkg/schema/base_node.go: BaseNodeImpl.PutNode, At", "pkg/schema/tree.go: PutNode, At, Match"]}
{"id": "C55", "title": "A schema description determines the schema tree", "statement": "Instantiating the same description twice gives the same tree. (Go iterates over the description in random order: the nodes are the same if no path is a prefix of another; otherwise one order works and another panics, and overlapping patterns are tried in random order, so that the node a name matches differs between runs.)", "quantifier": "every description and every iteration order", "why_tests_cant": "A test sees one of the iteration orders.", "anchors": ["pkg/schema/representation.go: SchemaDesc.Instantiate"]}
{"id": "C56", "title": "Interests at a schema node are answered from storage or validated", "statement": "An Interest that arrives at a node is answered with what the first storage that has something returns. Otherwise the application sees it, with its parameters; if it is signed or has parameters only if the validators accept it. (False for an Interest with the empty name, which panics.)", "quantifier": "every Interest, list of storages and list of validators", "why_tests_cant": "All combinations of storages, verdicts and Interests.", "anchors": ["pkg/schema/expressing_point.go: OnInterest, SearchCache", "pkg/schema/event.go: DispatchUntil"]}
{"id": "C57", "title": "Provided and fetched Data is served from the storage", "statement": "After LeafNode.Provide, and after a fetched Data was accepted, an Interest for its name is answered with exactly its bytes, whatever is stored under other names in between, until its validity ends (or for ever if freshness is not asked for). Need of that name, without parameters and signer, calls back with that Data without sending anything. (False for accepted Data without FreshnessPeriod or whose name has no node: the storage panics; and Need panics on provided content that has empty buffers.)", "quantifier": "every name, content, configuration, signer, later history of the storage and clock value", "why_tests_cant": "All histories of the storage.", "anchors": ["pkg/schema/leaf_node.go: Provide", "pkg/schema/expressing_point.go: NeedCallback, OnInterest", "pkg/schema/basic_policies.go: MemStoragePolicy"]}
{"id": "C58", "title": "A versioned object is discovered and fetched whole", "statement": "RdrNode.Provide publishes an object under a new version and a metadata packet naming that version, its last segment and its size; it is found in a storage under 32=metadata. A consumer that gets this metadata gets exactly the content of that version or is told it failed, and gets it if every packet arrives in one of its trials; it never hangs or crashes. (False: with several versions in a storage discovery may return an older one; asking for a given version, and malformed metadata, crash the consumer; metadata naming another object is reported as Data without content.)", "quantifier": "every name, content, division into buffers, segment size, signer, storage history and behaviour of the network", "why_tests_cant": "All contents, sizes, losses and storage histories.", "anchors": ["pkg/schema/rdr/rdr.go: RdrNode.Provide, RdrNode.NeedCallback"]}
{"id": "C59", "title": "An object with a manifest is fetched whole and unaltered, whoever sends its segments", "statement": "GeneralObjNode.Provide publishes the segments, metadata and a manifest with the digest of every segment packet. A consumer that gets this manifest asks for every segment with its digest and gets exactly the content that was provided or is told it failed, whoever answers, and gets it if every segment arrives in one of its trials. (False for an empty manifest: segments are then accepted without digests.)", "quantifier": "every name, content, division into buffers, segment size, signer, digest function without collisions among the packets received, and behaviour of the network", "why_tests_cant": "All contents, adversarial answers and losses.", "anchors": ["pkg/schema/rdr/rdr.go: GeneralObjNode.Provide, GeneralObjNode.NeedCallback"]}
{"id": "C60", "title": "Signers for Interests announce increasing sequence numbers", "statement": "Of the Interests signed with one signer, each carries a greater sequence number than all before it (until 2^64), so that a receiver can reject replays. (False for the HMAC signer, whose number never changes.)", "quantifier": "every number of Interests, every signer, key and initial number", "why_tests_cant": "All lengths of the history of a signer.", "anchors": ["pkg/security/sha256-signer.go", "pkg/security/hmac-signer.go", "pkg/security/ecc-signer.go", "pkg/security/rsa-signer.go"]}
{"id": "C61", "title": "A trust schema accepts what the designated key signed, and nothing else", "statement": "At a node with SignedByPolicy, Data is signed with the key whose name is the key pattern with the values of the Data's name, replaced as the mapping says; a received Data is accepted exactly if it has an HMAC made with the key fetched under that name. (False: the key locator of the packet is not looked at; a variable only in the mapping has no value, so Data stays unsigned and received Data crashes the program; so does Data at no node of the tree; with an implicit digest in the Interest the digest becomes part of the key's name.)", "quantifier": "every schema tree, key pattern, mapping, name, content, key and received packet", "why_tests_cant": "All names, patterns and forged packets.", "anchors": ["pkg/schema/demosec/policies.go: SignedByPolicy"]}
{"id": "C62", "title": "The key store keeps, certifies and serves keys", "statement": "A key enrolled under a new name is stored with a certificate that verifies with the signing key; a trust anchor is taken exactly if it verifies with the key it contains; a key, once stored, is what is found under its name after any history; KeyStoragePolicy answers Interests for saved keys. (False: a key stored under a name in use is reported stored but never used; a certificate names itself as its signing key; anchors announcing another signature type are taken.)", "quantifier": "every history of the store, name, key and certificate", "why_tests_cant": "All histories of enrolling, trusting and saving.", "anchors": ["pkg/schema/demosec/store.go", "pkg/schema/demosec/policies.go: KeyStoragePolicy"]}
{"id": "C63", "title": "Users of a shared document end with the same text", "statement": "If users edit the same document at the same time, everyone who received all their records has the same text, in whatever order the records arrived; pieces typed in one go stay together; records that cannot be applied yet wait. (False in part: two users who type into a new document at the same time can crash a third; a record that arrives twice is inserted twice; a deletion that arrives before its item blocks all later records.)", "quantifier": "every document, every set of concurrent edits, every order of arrival", "why_tests_cant": "All interleavings of edits and deliveries.", "anchors": ["examples/schema-test/shared-doc/crdt/crdt.go InsertInto", "examples/schema-test/shared-doc/crdt/textdoc.go HandleRecord"]}
{"id": "C64", "title": "A node of a sync group in a schema tree learns and reports what is new", "statement": "An SvsNode knows for each other node the greatest sequence number any Sync Interest told it, and puts into its channel of missing data each number of each other node once, in order; NewData uses the next number, announces it at once, under the name GetDataName gives; between Attach and Detach exactly one timer is pending, and when it runs the vector is sent unless others sent all of it since suppression began; what is sent is what is received. (False: a vector that cannot be parsed, or that arrives after Detach, panics; after a restart the own number falls back; a number of 2^64-1 gives an empty range; a timer that fired during Detach goes on for ever.)", "quantifier": "every history of Sync Interests, timers, new data, with any vectors, repeated, reordered or forged", "why_tests_cant": "All histories and schedules.", "anchors": ["pkg/schema/svs/sync.go: SvsNode", "pkg/schema/svs/tlv.go: StateVec"]}
{"id": "C65", "title": "A sync group in a schema tree converges under loss and reordering", "statement": "In a group of SvsNodes with different ids that start together, every node knows its own number exactly and never more of another than it published; no step panics; own data are never reported missing, and those of each other node once each; once any vector with the last number of a node was delivered, the receiver knows it for good and has reported each packet once.", "quantifier": "every number of nodes, schedule, loss, repetition and reordering of vectors", "why_tests_cant": "All schedules and delivery orders.", "anchors": ["pkg/schema/svs/sync.go: SvsNode"]}
{"id": "C66", "title": "A management command asks the forwarder for what its caller asked for", "statement": "For every module, command, arguments and signer, ExecMgmtCmd makes an Interest that readers accept, named /localhost/nfd/<module>/<command>/<parameters>/<digest>, whose parameters are read back as exactly the arguments and whose signature covers the name and SignatureInfo; RegisterRoute and UnregisterRoute ask for the prefix given. (False: with parameters of more than 252 bytes the Interest cannot be read; signers that announce more than 252 bytes, such as RSA, are refused.)", "quantifier": "every module, command, argument values, nonce and signer", "why_tests_cant": "All argument values and signers.", "anchors": ["pkg/ndn/mgmt_2022/mgmt.go: MakeCmd", "pkg/engine/basic/default_engine.go: ExecMgmtCmd, RegisterRoute, UnregisterRoute"]}
{"id": "C67", "title": "A management command returns once, with the answer of the forwarder", "statement": "ExecMgmtCmd succeeds only for an accepted Data with status 200; any other response gives an error with its code and text, in whatever buffers it came; Nack, timeout, a rejected signature and unreadable content give errors; every command returns, at the latest when its Interest times out, and the engine goes on. (False: a Nack that arrives while the timer waits for the lock makes the second callback panic; if the Interest cannot be sent, its time-out blocks the engine for ever; some contents panic.)", "quantifier": "every response, fragmentation and history of the engine", "why_tests_cant": "All responses, schedules of timers and packets.", "anchors": ["pkg/engine/basic/default_engine.go: ExecMgmtCmd"]}
{"id": "C68", "title": "A key chain finds exactly the identities, keys and certificates it stores, and signs with the right key", "statement": "GetIdentity, GetKey and GetCert return exactly the stored entry of that name; FindCert of a key or identity returns the first certificate of that key or identity that the caller's function accepts, and nil only if there is none; the certificate leads back to its key and identity, has the key locator of its packet, and is the one GetCert returns; SelfSignedCert finds a certificate issued by self; keys share a private key file only if the digests of their names agree; a signer exists only if the key's file does, its Data names the certificate as key locator and the public key verifies it. (False: an entry whose name has more than 252 bytes is never found by name; an identity returns keys of other identities, a key certificates of other keys; Data signed with an RSA key are accepted by no RSA validator.)", "quantifier": "every database of owned keys, row order, name and acceptance function", "why_tests_cant": "All database contents and names.", "anchors": ["pkg/security/pib/sqlite-pib.go: SqlitePib, SqliteIdent, SqliteKey, SqliteCert", "pkg/security/pib/tpm-file.go: FileTpm"]}
{"id": "C69", "title": "A structure turned into a map and back is the same, and a map with a wrong entry is refused", "statement": "ToDict gives an entry with its value for exactly the fields that are not nil; DictTo... reads every field from the entry of its name whatever else is in the map, and otherwise returns an error naming the first field that has an entry of another type or is required and missing; DictTo... of ToDict gives the structure back. (False: a structure with a nested structure is refused at that field, so management arguments with a strategy and responses with parameters do not come back; times and wires are dropped.)", "quantifier": "every model of natural, fixed-width, string, binary, bool, name and structure fields, every value and every map", "why_tests_cant": "All models, values and maps.", "anchors": ["pkg/encoding/codegen/dicts.go", "pkg/encoding/codegen/model.go: GenToDict, GenFromDict", "pkg/ndn/mgmt_2022/zz_generated.go: ToDict, DictToControlArgs"]}
{"id": "C70", "title": "A configured property keeps the value it was given", "statement": "For every class of schema nodes and policies: a legal value given to Set is accepted and Get returns it (times in milliseconds), whatever was set before; no other property changes; a property for which nothing was accepted shows its documented default; a refused value is reported and changes nothing; a value of another type is refused; a property inherited from a sub-node is that node's. Attributes of a description are set whatever the iteration order, '$' names are replaced from the environment at any depth and only there, and a missing one is an error. (False: a time.Duration is refused, and the sync node, which uses one, keeps the default lifetime; a content type cannot be a JSON number; a key name string is accepted exactly if it is no name; numbers in a JSON matching are dropped silently; times out of range come back as others.)", "quantifier": "every class, property, value, environment and sequence of calls", "why_tests_cant": "All values and histories.", "anchors": ["pkg/schema/interface.go: DefaultPropertyDesc, TimePropertyDesc, MatchingPropertyDesc, SubNodePropertyDesc, NamePropertyDesc", "pkg/schema/base_node.go: Node.Get, Node.Set", "pkg/schema/representation.go: instantiateAttrs, SchemaDesc.Instantiate", "pkg/schema/svs/sync.go: CreateSvsNode"]}
{"id": "C71", "title": "Packets sent by several goroutines arrive whole, once and in order", "statement": "Whatever goroutines call Send, Open and Close of a StreamFace, the peer receives each packet whose Send returned nil once and unbroken, whatever was called later after it; of a packet whose Send failed at most a part at the end of its connection. (False: if the connection fails and Open makes a new one during a Send, its buffers go to two connections; Send panics if Run ends after the check of running.)", "quantifier": "every number of goroutines, schedule, packet, split into buffers, chunking by the network, and failures of writes and reads", "why_tests_cant": "All interleavings of the goroutines.", "anchors": ["pkg/engine/basic/transports.go: StreamFace.Send, StreamFace.Open, StreamFace.Close, StreamFace.Run"]}
{"id": "C72", "title": "A stream face opens, runs and closes as asked", "statement": "If calls of Open do not overlap: at most one goroutine receives; the face reports running only while one does or an Open is in progress; Open works on every face that neither runs nor opens, and otherwise returns an error without effect; after a Close returned and until the next Open the receiver ends within five of its steps, no byte is written, Send returns an error; no call panics. (False: Send or Close panic if the receiver ends during them; a receiver that ends by itself leaves its connection open for ever; two Opens at once both succeed and leave a connection open.)", "quantifier": "every number of goroutines, schedule, and failures of dials, writes and reads", "why_tests_cant": "All interleavings of the goroutines.", "anchors": ["pkg/engine/basic/transports.go: StreamFace.Open, StreamFace.Close, StreamFace.Run, StreamFace.IsRunning"]}
{"id": "C73", "title": "A WebSocket face hands over the packets that were sent, and reports the end", "statement": "Each Send that returns nil, in whatever goroutines, is one binary message with the packet; the receiver hands over the binary messages in order and nothing else; the end of the connection is reported. (False: two Sends at once may panic; the receiver ignores the end of the connection and reads on until the read panics.)", "quantifier": "every number of goroutines, schedule, packet and sequence of messages", "why_tests_cant": "All interleavings and message sequences.", "anchors": ["pkg/engine/basic/transports.go: WebSocketFace.Send, WebSocketFace.Run"]}
{"id": "C74", "title": "An event calls its listeners, in order, whatever the callbacks add and remove", "statement": "Firing an event of a node calls the listeners it has at that moment, in the order in which they were added, each once, until a result is accepted; the result of the last call is returned. Listeners added or removed by a callback while the event is fired count from the next time on. Removing a listener leaves the order of the others and the listeners of other events alone.", "quantifier": "every history of adding, removing and firing, every behaviour of the callbacks, every growth of the slices", "why_tests_cant": "All histories; whether a callback that adds or removes listeners disturbs the dispatch in progress depends on the capacities of slices.", "anchors": ["pkg/schema/event.go: EventTarget.Add, EventTarget.Remove, EventTarget.Dispatch, EventTarget.DispatchUntil"]}
{"id": "C75", "title": "A description gives the nodes of a schema tree exactly the listeners it names", "statement": "After Instantiate the listeners of an event of a node are those of its class, then the callbacks named in the description, then those of the policies that concern the node, in the order of the description, and no others; storage policies concern a whole subtree, other policies one node. The random order of the map of nodes does not matter. Instantiate panics exactly when a class, event, callback, node or key is missing. (The order matters if one path is a prefix of another.)", "quantifier": "every description, environment and order of the map", "why_tests_cant": "All descriptions and map orders.", "anchors": ["pkg/schema/representation.go: SchemaDesc.Instantiate, instantiateEvents", "pkg/schema/basic_policies.go: Apply", "pkg/schema/demosec/policies.go: Apply"]}
{"id": "C76", "title": "Attaching and detaching schema trees", "statement": "Any number of trees are attached to and detached from an engine: an Interest goes to the attached tree whose prefix is above its name; Attach fails exactly if the prefix conflicts with that of an attached tree; Attach calls the attach listeners of every node once, children first, and registers the routes asked for; Detach calls the detach listeners of every node once, parents first. An error of a listener is reported, Detach has no effect on other trees, a failed Attach has no effect. (False: errors of listeners are dropped, a second Detach removes the handler of another tree, a failed Attach leaves its listeners called.)", "quantifier": "every number of trees, history of operations and behaviour of listeners", "why_tests_cant": "All histories and trees.", "anchors": ["pkg/schema/tree.go: Tree.Attach, Tree.Detach, Tree.intHandler", "pkg/schema/base_node.go: Node.OnAttach, Node.OnDetach", "pkg/schema/basic_policies.go: RegisterPolicy"]}
{"id": "C77", "title": "The generator makes of a structure what its annotations say", "statement": "gondn_tlv_gen makes a codec for every structure with annotations: with the options named above it, and with exactly the annotated fields, in order, each of the kind, with the arguments and with the type number (decimal or 0x) written; other structures and fields are left alone; the result is the same in every run. The structures of this library, read from their sources, are the ones the codec properties are proved of. A mistake is reported. (False: in 'type ( ... )' only the first structure is seen, of 'A, B T' only A; a leading zero makes a type number octal and an unreadable one counts as 0; any word that begins like a kind is taken for it, an unknown width is 0 bytes, the key of a map gets the arguments of its value; a field with a wrong annotation is dropped.)", "quantifier": "every declaration, annotation of any nesting, tag, comment, and every order in which Go walks through its map of kinds", "why_tests_cant": "All annotations and map orders.", "anchors": ["pkg/encoding/codegen/codegen.go: parseTag, parseDoc, ParseField, ProcessDecl", "pkg/encoding/codegen/fields.go: CreateField", "pkg/encoding/codegen/model.go: ProcessOption", "pkg/encoding/codegen/map_field.go: NewMapField", "pkg/encoding/codegen/fields_sequence.go: NewSequenceField"]}
{"id": "C78", "title": "Log entries are independent values", "statement": "A handler is given exactly the messages whose level is at least that of the logger, in the order of the calls, each with the fields its entry was derived with (later ones win), whatever has been derived from the same entry elsewhere, as long as maps given to an entry are not changed. Names lists every field once in increasing order. The texts of levels can be read back. Lines of one text handler are never mixed.", "quantifier": "every program of With, message, Trace, Stop, Fatal and level calls, every growth of slices, every order of maps, every interleaving of calls of a handler", "why_tests_cant": "All programs, growths, map orders and schedules.", "anchors": ["pkg/log/entry.go: Entry.WithFields, Entry.WithError, Entry.Trace, Entry.Stop, Entry.mergedFields, Entry.finalize", "pkg/log/logger.go: Logger.log, Fields.Names", "pkg/log/levels.go: ParseLevel, Level.String, Level.MarshalJSON, Level.UnmarshalJSON", "pkg/log/text.go: TextHandler.HandleLog"]}
{"id": "C79", "title": "Calls do not wait for each other for ever", "statement": "Goroutines that use any number of engines, schema trees, storages, sync nodes and SvSyncs (Express, NeedChan, management commands, attaching, handlers, timers), and the goroutines the library starts, never come to a point where some of them wait for locks for ever, whatever the order of their steps, and every call comes to its end, provided: a callback of Express makes no call that expresses or that locks a tree, a sync node or an SvSync (it may start a goroutine for it); code run while a tree is locked makes no call that locks a tree; the function told of updates and the validators of what is fetched make no call of an SvSync and none that locks a tree; and somebody reads the channel of missing data without waiting for the node. Each of these conditions is needed. No two goroutines hold a lock at the same time if one holds it for writing.", "quantifier": "every number of goroutines, every program of calls and callbacks, every schedule, every size of the channel", "why_tests_cant": "All schedules and programs of callbacks.", "anchors": ["pkg/engine/basic/default_engine.go: Express, onData, onNack, onInterest, AttachHandler, DetachHandler", "pkg/schema/tree.go: Tree.Attach, Tree.Detach, Tree.intHandler, Tree.PutNode, Tree.RLock", "pkg/schema/svs/sync.go: onSyncInt, onSyncTimer, NewData", "pkg/sync/svs.go: SvSync", "pkg/schema/basic_policies.go: MemStoragePolicy", "pkg/engine/dummy/timer.go: Timer"]}
{"id": "C80", "title": "Names are values, within limits", "statement": "Calls do not change names that other variables hold, nor the names earlier calls gave, in every program that is careful: a name made by NameFromStr, Clone, Apply, FromMatching or make is extended (append, ToFullName, MakeInterest with parameters) any number of times; one read from bytes or got by extending another at most once; a prefix name[:k] never; and MakeInterest with parameters is not given a name that ends with a digest of parameters. Any call changes at most the one array element behind the name it extends (or the last of a name that ends with such a digest). Every node of an attached tree gets its own path. (Each limit is needed: of two Interests with parameters made of the name of any received packet the first gets the final name of the second; one made of another's final name changes that; one made of name[:k] overwrites component k of the name; a failed one leaves zeros in the name; two full names of a received name become one.)", "quantifier": "every program of these calls, every name, every growth of slices, every tree and prefix", "why_tests_cant": "All programs and growths.", "anchors": ["pkg/ndn/spec_2022/spec.go: MakeInterest", "pkg/encoding/codegen/signature.go: InterestNameField.GenInitEncoder", "pkg/encoding/name_pattern.go: Name.ToFullName, Name.Clone, ReadName", "pkg/encoding/codegen/fields_name.go: NameField.GenReadFrom", "pkg/schema/base_node.go: Node.OnAttach, Node.Apply", "pkg/sync/svs.go: sendSyncInterest"]}
{"id": "C81", "title": "Faces of programs in a browser", "statement": "A WasmWsFace never has more than one connection that may carry packets, whatever is done. As long as connections that are begun succeed, the face is not closed while Open waits and onPkt returns errors only about packets of the current connection, no call panics, IsRunning holds from the return of Open to Close or an error of onPkt, Send returns nil exactly then, the other side gets the packets sent before it closed, whole and in order, and onPkt gets every binary message once, in order. A WasmSimFace never panics, Send returns nil exactly while it runs, and if it is the only one onPkt gets exactly the packets sent while it was open. (False otherwise: if connecting fails Open never returns; after Close during Open the face may seem to run, and Send panics; after the other side has closed Send returns nil and the packet is lost; a handler that closes the face and returns an error panics, a late error closes a newer connection; of two sim faces one gets no packets, and an error of onPkt leaves a sim face that cannot be opened and still gets packets.)", "quantifier": "every history of calls, connections, failures, messages and handlers, every number of sim faces", "why_tests_cant": "All histories.", "anchors": ["pkg/engine/basic/wasmws.go: WasmWsFace.Open, WasmWsFace.Close, WasmWsFace.Send, WasmWsFace.onMessage", "pkg/engine/basic/wasmsim.go: WasmSimFace.Open, WasmSimFace.Close, WasmSimFace.Send, WasmSimFace.onMessage"]}
{"id": "C82", "title": "Functions scheduled with the real timer", "statement": "A function given to Schedule of the engine's real timer starts at most once and not before the duration has passed; unless its cancel function is called it starts when the time has come; once a call of the cancel function has returned nil while the function had not started, it never starts. Calls of one cancel function that do not overlap never panic; the first returns nil, the others the error. (False: nil does not mean that the function did not run; of two overlapping calls both may return nil, or one panics.)", "quantifier": "every number of scheduled functions, every duration, every interleaving of cancelling goroutines and of time", "why_tests_cant": "All interleavings.", "anchors": ["pkg/engine/basic/timer.go: Timer.Schedule"]}
{"id": "C83", "title": "Fetching with retries", "statement": "DataFetcher returns the first Data its node gives, as it is, and asks no more; if none of maxRetries trials gives Data it returns the last result, after exactly maxRetries trials; it returns unless a trial gives no result. Of a segmented object it returns Data only with exactly the content that was provided, and does so if each segment arrives in one of the rounds. (False: the InterestConfig it is given is not used; with maxRetries of zero or less it returns a result of no Interest; a segmented node with an unknown Pipeline makes it wait for ever, a node without NeedChan crashes it.)", "quantifier": "every number of trials, every history of results, every object and every network", "why_tests_cant": "All histories of losses and objects.", "anchors": ["pkg/schema/rdr/pipelines.go: DataFetcher", "pkg/schema/rdr/rdr.go: SegmentedNode.NeedChan, SegmentedNode.NeedCallback", "pkg/schema/interface.go: MatchedNode.Call"]}
{"id": "C84", "title": "A signature of a Data packet vouches for what is delivered", "statement": "Whatever bytes arrive: if ReadData accepts them and the covered bytes it reports are the signed portion of a Data packet that somebody made, the Data it delivers has the name, content type, freshness period, final block, content, signature type, key name and validity of that packet, and a signature. So nobody can present a signature made for one Data packet with other fields. This holds of every packet that is one Data element, with whatever unknown, repeated, misplaced or overlong elements inside. (False of a packet of two Data elements: whoever has seen a Data packet can make one that is delivered under another name with the covered bytes and the signature of the one seen; the engine takes such a packet out of a link-layer packet.)", "quantifier": "every byte string that arrives, every Data packet somebody signed", "why_tests_cant": "All byte strings an attacker may send.", "anchors": ["pkg/ndn/spec_2022/spec.go: ReadData", "pkg/ndn/spec_2022/zz_generated.go: DataParsingContext.Parse, DataParsingContext.Init, PacketParsingContext.Init, PacketParsingContext.Parse", "pkg/engine/basic/default_engine.go: onPacket"]}
{"id": "C85", "title": "A signature of an Interest vouches for what is asked", "statement": "Whatever bytes arrive: if ReadInterest accepts them with a SignatureInfo and a SignatureValue and the covered bytes it reports are those of a signed Interest that somebody made, the Interest it delivers has the name of that one (up to the digest at its end), its parameters and its signature type, key name, nonce, time and sequence number. So nobody can present a signature made for one Interest with another name or other parameters. This holds of every packet that is one Interest element, with whatever unknown, repeated, misplaced or overlong elements inside; names with a component of type 7 are left out. CanBePrefix, MustBeFresh, hint, nonce, lifetime and hop limit are not signed. (False of a packet of two Interest elements: whoever has seen a signed Interest for /a/b can make one for /b with the covered bytes and the signature of the one seen; the engine takes such a packet out of a link-layer packet and calls the handler of /b.)", "quantifier": "every byte string that arrives, every signed Interest somebody made, every hash function", "why_tests_cant": "All byte strings an attacker may send.", "anchors": ["pkg/ndn/spec_2022/spec.go: ReadInterest, checkInterest", "pkg/ndn/spec_2022/zz_generated.go: InterestParsingContext.Parse, InterestParsingContext.Init, PacketParsingContext.Init, PacketParsingContext.Parse", "pkg/encoding/codegen/signature.go: InterestNameField.GenReadFrom", "pkg/engine/basic/default_engine.go: onPacket"]}
{"id": "C86", "title": "Input that ends too early is refused", "statement": "NameFromBytes and ReadName accept exactly the complete encodings of names (type and length in any width), so every proper prefix of the bytes of a name is an error, except that ReadName of whole components gives the shorter name. Every proper prefix of an Interest or Data element whose value begins with a Name, as in every packet MakeInterest and MakeData produce, makes ReadData, ReadInterest and ReadPacket return an error, without panic, and is dropped by the engine. Of a stream that ends within a packet the StreamFace hands over the complete packets, in order and unchanged, and then reports an error. (False of other elements: if the value of an element that is cut off begins with a whole Data packet, that packet is accepted.)", "quantifier": "every name, every packet and every place where it is cut, every list of packets on a stream", "why_tests_cant": "All inputs and all cuts.", "anchors": ["pkg/encoding/name_pattern.go: ReadName, NameFromBytes", "pkg/encoding/name_component.go: ReadComponent", "pkg/encoding/primitives.go: ReadTLNum", "pkg/encoding/readers.go: BufferReader.Delegate, BufferReader.ReadBuf", "pkg/ndn/spec_2022/spec.go: ReadPacket, ReadData, ReadInterest", "pkg/engine/basic/default_engine.go: onPacket", "pkg/engine/basic/transports.go: StreamFace.Run"]}
{"id": "C87", "title": "Full names", "statement": "ToFullName of a non-empty name that does not end with an implicit digest is that name followed by the implicit SHA-256 digest of the bytes of the packet, however they are split into buffers; a name that ends with an implicit digest is returned unchanged, so a second call changes nothing. Two names without digest get the same full name only if they are equal and so are the digests. (False: the empty name panics.)", "quantifier": "every non-empty name, every packet and fragmentation, every hash function", "why_tests_cant": "All names and packets.", "anchors": ["pkg/encoding/name_pattern.go: Name.ToFullName"]}
{"id": "C88", "title": "An engine from Start to Shutdown and again", "statement": "Over a DummyFace and every sequence of calls: Start succeeds exactly when the engine is down and Shutdown exactly when it is up, and neither changes the pending Interests, the handlers or the calls waiting for a reply. While the engine is down, packets are refused without effect, and Express and Reply return errors. Between a Start and the next Shutdown, Consume returns the packets of Express and Reply in order, each whole and once. A handler is called only while the engine is up, for Interests below a prefix it was attached to, and its Reply sends until the deadline whenever the engine is up, also after restarts. Every Interest expressed, up or down, is called back once its time is over, whatever happens to the face. Data is reported to a callback only for a matching packet that came in while the engine was up. Nothing panics with packets the decoder can take (C49). (False: that an Interest whose Express failed because the engine was down is gone: a later Data is reported to its callback; that packets sent before a Shutdown can be consumed after the next Start.)", "quantifier": "every sequence of calls of the engine and the face, every packet and every time that passes between", "why_tests_cant": "All histories, with any number of restarts at any place.", "anchors": ["pkg/engine/basic/default_engine.go: Engine.Start, Engine.Shutdown, Engine.Express, Engine.onPacket, Engine.AttachHandler, Engine.DetachHandler", "pkg/engine/dummy/transports.go: DummyFace.Open, DummyFace.Close, DummyFace.FeedPacket, DummyFace.Consume, DummyFace.Send"]}
{"id": "C89", "title": "The text form of names is fixed, character by character, in both directions", "statement": "String and CanonicalString of a component write letters, digits and -_.~ as they are and every other byte as a percent sign with two capital hexadecimal digits; digests are written as sha256digest= or params-sha256= with small hexadecimal digits, numbers as seg=, off=, v=, t= or seq= with a decimal numeral without leading zeros, other types as their decimal number and an equals sign. Name.String puts a slash before each component and one at the end if the last is empty. ComponentFromStr and NameFromStr accept exactly the texts of the documented grammar (any character but % = / and backslash stands for itself, escapes in either case, numerals with leading zeros, slashes at the ends optional) and return what the grammar says; the same holds for patterns with variables in angle brackets.", "quantifier": "all components, names, patterns and all strings", "why_tests_cant": "The set of strings is infinite, and round trips tested on examples do not notice a changed alphabet, a changed prefix or an extra accepted form that both directions share.", "anchors": ["pkg/encoding/name_component.go: Component.String, Component.CanonicalString, ComponentFromStr, ComponentPatternFromStr", "pkg/encoding/name_pattern.go: Name.String, NameFromStr, NamePatternFromStr"]}
