# Formal model of zjkmxy/go-ndn

## Approach

The model is written in Gallina, function by function, next to the Go source:
every definition cites the file and lines it renders.  Nothing of /repo is
compiled or executed; the correspondence between Go text and Gallina text is by
reading and is part of the trusted base.

Conventions used in all model files:

* A byte is an `N` below 256, a buffer is a `list N`, a wire is a `list` of
  buffers.  `bytes_ok` says that all elements are bytes.
* Unsigned 64-bit arithmetic is written out with `mod 2^64`; Go's `int` is a
  `Z`, with explicit wrap-around (`wrap64`) where the code adds attacker-given
  lengths.
* Go outcomes are explicit: `Ok v`, `Err e`, `Panic` (run-time panic), and
  `Hang` (a fuel-indexed loop ran out of fuel).  Theorems that claim success
  exclude `Hang`, so a loop never "succeeds" because the fuel ended.
* Maps are association lists/functions, pointers are indices into an explicit
  heap where sharing matters (trie nodes, CRDT items).
* Goroutines, timers and the network are state machines: one constructor per
  atomic step (a step is what runs under one lock acquisition or one callback),
  theorems quantify over all finite step sequences.
* Cryptography (SHA-256, HMAC, ECDSA/RSA/Ed25519, AES) and xxhash are section
  variables; theorems carry their laws as explicit hypotheses.  Sections are
  closed, so they become universally quantified.

Files: `*Model` holds definitions only, `*Spec` independent specifications,
`*Proofs`, `CodecEnc*` and `CodecPar*` lemmas, `Props*` the final statements, each closed by `exact`
and followed by `Print Assumptions`, with an `Example` that exhibits a
non-trivial instance.

When the statement a user would rely on is false of the code, the faithful
model is kept, the failing instance is proved as `..._refuted`, and the largest
true part is proved under a name ending in `_partial`.

## Plan per property

| id | model | proof |
|----|-------|-------|
| C01-C04 | TLNum/Nat codecs, ReadTLNum over a reader, ShrinkLength on lists | case analysis on widths, big-endian lemmas, all 64-bit values |
| C05, C06 | Component/Name encoders, ReadComponent/ReadName over readers | induction over components; refuted at 253 bytes |
| C07, C08 | Compare/Equal/IsPrefix | order axioms by induction; equivalence with byte order of encodings |
| C09-C11 | text formats with escaping, decimal and hex conventions, Split on '/' | round trip by induction over bytes/components; collisions and panics refuted by witness |
| C12 | Pattern/Match/FromMatching with maps as association lists | induction over pattern |
| C13 | hash input stream | witness pair for every hash function |
| C14 | BufferReader and WireReader with Go index panics | simulation relation to an abstract cursor, by induction over call sequences |
| C15-C18 | deep embedding of TLV models; generated Encode/Parse templates as interpreters over that embedding | induction over model and value; instances for all models of the repository |
| C19-C22 | MakeData/ReadData/MakeInterest/ReadInterest on top of the embedding | composition of the codec theorems, SHA-256 abstract |
| C23 | heap as list, sift up/down | heap invariant + permutation by induction over operations |
| C24 | trie as heap of nodes with parent pointers | refinement to a map from key paths |
| C25-C27 | PIT/FIB state machine over the trie | invariants over all event sequences |
| C29-C31 | stream framing, dummy timer, dummy face | refinement over all chunkings / histories |
| C28, C48-C50 | onPacket, onInterest, Reply on top of the codec, PIT and FIB models | composition; totality from C18 |
| C32-C35, C51-C53 | SvSync state machine with network events; its wire format; its goroutines and channel | invariants, join-semilattice laws, refinement |
| C36, C54, C55 | schema tree: matching, building, instantiating a description | induction over tree/name/path; permutations of the description |
| C37 | segmentation loop | loop invariant on remaining content |
| C38, C42, C56, C57 | NeedCallback, OnInterest and Provide as lists of actions, listeners as functions | induction over listeners; composition with the engine, storage and packet theorems |
| C39 | MemStorage over the trie | refinement |
| C58, C59 | RdrNode and GeneralObjNode, reusing C37 end to end | composition; refutations by witness |
| C40, C41, C60 | signers/validators with abstract primitives | algebra, induction over the calls; refutations by witness |
| C61, C62 | trust schema and key store of demosec | composition with C36, C38, C19; invariant over histories |
| C43 | CBC with abstract block cipher | induction over blocks |
| C44, C63 | CRDT list; convergence of one round of concurrent edits; pending records | refinement of the heap to a list, invariant over operations; merge of typed pieces; refinement of the queue to a bag |
| C64, C65 | SvsNode of a schema tree: one node with arbitrary input; a group of nodes that deliver each other's vectors | invariants over histories and schedules; round trip on the wire |
| C71, C72, C73 | goroutines that share a StreamFace or WebSocketFace: a small-step interleaving semantics | invariants over all schedules, a rank for the end of Run; refutations by schedule |
| C77 | front end of the code generator: declarations, tags, annotations | round trip by induction over annotations; the structures of the library computed from their source text |
| C78 | logging: entries, fields, levels, text handler | refinement of slices and shared maps to values; induction over programs; interleaving of handlers |
| C79 | locks of the engine, trees, sync nodes, SvSync, storage, sending and the dummy timer | lock order: invariant over schedules, progress of the holder of the greatest lock, a measure for the end |
| C80 | names as slices of shared arrays: extending, cutting, MakeInterest, ToFullName, paths of nodes | refinement to values for programs that obey a discipline of use; one call from any state; induction over trees; refutations for all names |
| C81 | faces of programs in a browser: WebSocket and simulator | refinement to down / waiting / up for calm histories, invariants for all histories; refutations by history |
| C82 | functions scheduled with the real timer, cancelled by any goroutines | invariants over histories of atomic steps; refutations by schedule |
| C83 | fetching with retries | induction over the trials and rounds; refutations by witness |
| C84 | ReadData on arbitrary bytes whose covered bytes somebody signed | simulation of the parser along the signed portion; refutations by witness |
| C85 | ReadInterest on arbitrary bytes whose covered bytes somebody signed | invariant of the parser, unique splitting into elements; refutations by witness, for every hash |
| C86 | names, packets and streams cut anywhere | exact acceptance condition of the readers, unique splitting into components; the parser on the part that is left; induction over the packets of a stream |
| C87 | ToFullName | case analysis |
| C88 | engine Start/Shutdown with everything else, on the dummy face | invariant by induction over calls; simulation by EngineModel histories |
| C89 | text forms of components, names and patterns | both directions against a separate grammar (`UriSpec`), induction over strings |
| C66, C67 | management commands; their answers and the channel between callback and caller | composition with C16, C21 and C25; refutations by witness |

## Trusted base

* the Coq 8.16.1 kernel (`coqc`, re-checked with `coqchk`);
* for each theorem exactly what `Print Assumptions` prints below it (aim:
  "Closed under the global context");
* the reading of the Go text described by the comment of each definition, and
  the simplifications named there;
* Go language semantics as encoded by the conventions above (slices, maps,
  integer conversion, panics).

Every theorem in the `Props*` files is at present "Closed under the global
context": no axiom of the standard library is used.

## Modelled code

| code in /repo | file in rocq/theories |
|---------------|------------------------|
| pkg/encoding/primitives.go | PrimModel |
| pkg/encoding/readers.go (BufferReader, WireReader) | ReaderModel |
| pkg/encoding/component.go, name.go (binary form, order, prefix, hash input) | NameModel |
| pkg/encoding/component.go, name.go, conventions (text form) | TextModel |
| pkg/encoding/pattern.go | NameModel, TextModel |
| pkg/utils priority queue, name trie | HeapModel, TrieModel |
| pkg/encoding/codegen: templates of all field types and of the parse loop, as interpreters of a model description | CodecModel |
| the structures of the definitions.go/tlv.go files | CodecLib |
| pkg/ndn/spec_2022/spec.go (MakeData, ReadData, MakeInterest, ReadInterest, ReadPacket, accessors) | SpecModel |
| pkg/engine/basic: PIT, FIB, timers | EngineModel, FibModel |
| pkg/engine/basic/default_engine.go: onPacket, onInterest, Reply | RecvModel |
| pkg/engine/basic/default_engine.go: Start, Shutdown, with Express, AttachHandler, DetachHandler, onPacket, Reply and dummy/transports.go, as calls one after the other (other faces: FaceModel, WsModel, WasmModel) | LifeModel |
| pkg/sync/svs.go, definitions.go (state vector sync; clock readings are parameters of the steps) | SyncModel |
| pkg/schema/base_node.go, tree.go, interface.go (Match, Refine, Apply, PutNode, At), representation.go (loop over the nodes); locking not modelled | SchemaModel |
| pkg/schema/basic_policies.go (MemStoragePolicy Get, Put), pkg/engine/basic/simple_trie.go FirstNodeIf; the lock is not modelled, the order in which Go iterates over a map is an argument | StoreModel |
| pkg/schema/event.go (DispatchUntil), expressing_point.go (OnInterest, SearchCache, NeedCallback, NeedChan), leaf_node.go (Provide), basic_policies.go (onSearch, onSave); listeners are pure functions, properties, descriptors and logging are not modelled | NeedModel |
| pkg/schema/rdr/rdr.go (SegmentedNode, RdrNode, GeneralObjNode: Provide and Need; the results of NeedChan of their children are an arbitrary function of name and trial) | `SegModel` |
| pkg/schema/demosec/encryption.go (ContentKeyNode: GenKey, Encrypt, Decrypt); the AES block functions are parameters, CBC of the standard library is spelled out, random bytes are arguments, what Decrypt overwrites is a result | `EncryptModel` |
| pkg/security/{sha256,hmac,ecc,rsa,empty-test}-signer.go, known-key-validator.go; Sha256SignerPolicy of pkg/schema/basic_policies.go; the cryptographic functions, clock, nonces and randomness are parameters | `SecModel` |
| pkg/schema/demosec/store.go, policies.go (SignedByPolicy, KeyStoragePolicy; onAttach and Apply, which only set up, are not modelled; what NeedChan at the key node gives is an arbitrary function of the name) | `DemoModel` |
| examples/schema-test/shared-doc/crdt/crdt.go, textdoc.go (pointers are indices into a list of items; a pointer comparison compares indices) | `CrdtModel` |
| pkg/schema/svs/sync.go, tlv.go (SvsNode; the channel never fills; a fired timer's function runs as a later step) | `SnModel` |
| pkg/ndn/mgmt_2022/mgmt.go, pkg/engine/basic/default_engine.go ExecMgmtCmd, RegisterRoute, UnregisterRoute (the callback's work is a function of the result; the channel is a record; that ExecMgmtCmd called on the goroutine of the engine waits for itself is not modelled) | `MgmtModel` |
| pkg/security/pib/sqlite-pib.go, tpm-file.go (tables are lists of rows in any order; SQL errors, connections and the SQL engine are not modelled; SHA-256, base64 and key parsers are parameters) | `PibModel` |
| pkg/encoding/codegen/dicts.go, model.go 351-377 (a Go map is an association list; types of `any` values are a constructor each; models with sequence or map fields are left out, their dict code does not compile) | `DictModel` |
| pkg/schema/interface.go 168-345 (property descriptors), base_node.go Get/Set, representation.go attributes, the property tables and defaults of all node and policy classes (an object is the list of its exported fields with types; floating point is mantissa and exponent without limits of the exponent, rounding to 53 or 24 bits spelled out; conversions Go leaves to the platform are parameters) | `AttrModel` |
| pkg/engine/basic/transports.go StreamFace as goroutines (each access of conn, running or sendMut is a step, memory is sequentially consistent; what Run reads is one step per packet, its bytes are in StreamModel; a Write fails after any number of bytes, and then for ever) | `FaceModel` |
| pkg/engine/basic/transports.go WebSocketFace Run and Send (facts about gorilla/websocket as stated at the head of the file; its Open and Close, which are those of StreamFace, are not repeated) | `WsModel` |
| pkg/schema/event.go (Add, Remove, Dispatch, DispatchUntil at the level of slices and arrays; callbacks add and remove listeners but do not fire events) | `EvtModel` |
| pkg/schema/representation.go Instantiate (events and policies), Apply of all policies of basic_policies.go and demosec/policies.go, the events of all node classes (an event is the list of its listeners; reflect is a look-up) | `PolModel` |
| pkg/schema/tree.go Attach, Detach, intHandler, base_node.go OnAttach, OnDetach, onAttach of the policies (each call holds the lock of its tree; listeners do not change the tree) | `AttachModel` |
| pkg/encoding/codegen/codegen.go, fields.go CreateField, the New...Field constructors, model.go ProcessOption (the Go parser's output is a record of texts; regexp and strconv as documented; files and packages of main.go, declarations inside functions and error texts are left out) | `GenModel` |
| pkg/log (entry.go, logger.go, levels.go, text.go; one logger; values of fields are strings, integers and numbered others; the text of a value, padding and ToLower of texts that are not ASCII are parameters; the handler is a list of calls; pkg.go, which calls the same methods of one logger, is left out; pkg/logging, an unused older copy, is left out) | `LogModel` |
| the order in which locks are taken and released, the channel of missing data filled and goroutines started by the functions listed in `call` (default_engine.go, tree.go, basic_policies.go, svs/sync.go, pkg/sync/svs.go, transports.go, dummy/timer.go); user code is any list of such calls on any number of objects; SvSync.Stop and its queue are left out; user code that waits in some other way is not modelled | `LockModel` |
| names as Go slices (arrays, offset, length; append with any growth): MakeInterest's handling of the name, ToFullName, ReadName, the name parsers, Clone, Apply, OnAttach's paths; the values of components are not shared; no concurrency | `AliasModel` |
| pkg/engine/basic/wasmws.go, wasmsim.go (a WebSocket of the browser is connecting, open or closed; calls are atomic except that Open waits and that onPkt takes time) | `WasmModel` |
| pkg/engine/basic/timer.go Schedule (the cancel function in atomic steps: test, Stop, assignment; of package time the documented behaviour) | `ClockModel` |
| pkg/schema/rdr/pipelines.go DataFetcher, NeedChan of the nodes of rdr.go (what a trial of the child gives is an arbitrary function; RdrPipelineFixed.Run has no statement) | `FetchModel` |
| pkg/engine/basic: stream face framing, dummy timer and dummy face | StreamModel, DummyModel |

`SpecModel` takes SHA-256 as a parameter (a function to 32 bytes) and a signer as the
results of its three calls; times are the integers the code passes to the encoder.
Received packets are read with BufferReaders, as the engine does, and with a
WireReader over the buffers MakeData produced, as the cache of a schema tree does.
`CodecKeep` shows which buffers a WireReader's delegate sees; `full_names`,
`full_wire`, `full_content` (SpecSpec) state that no buffer is empty and
`beyond_header` that the first buffer holds more than the packet's header.  Without the
first MakeData's own buffers cannot be read back (`C19_wire_refuted`: a panic), without
the second the signed portion loses bytes (`C20_fragments_refuted`).
C84 asks the converse of C19 and C20: not what an honest packet is read as, but what
any bytes can be read as whose covered bytes somebody has signed.  `AuthProofs` follows
the parser over arbitrary input from the start marker to the signature.  C85 asks the
same of signed Interests: `AuthInt` shows that the covered bytes are a run of elements
that can be split in one way only, `AuthInt2` that this run starts at the parameters
and not at the first byte.  C86 (`EdgeProofs`, `EdgePkt`, `EdgeNum`) describes all bytes the name
readers accept and follows the packet parser over a packet that is cut off.  All fields of
one kind in zz_generated.go are parsed by the same text up to names, so that the one
definition `k_read` per kind stands for each of them.

`CodecModel` interprets what the generator would emit; the generated
`zz_generated.go` files are taken to be the generator's output.  The descriptions
in `CodecLib` are those the generator derives from the text of the definition files
(`GenSrc`, copied by a script): `C77_library`.

## Not modelled

Which messages the other packages log, the text of error messages, JSON parsing, Go's reflect package beyond what
AttrModel uses, the browser beyond its WebSocket states, SQLite itself, example programs other than the
CRDT library, memory exhaustion below Go's allocation limit, and data races that
Go leaves undefined.

## How to read seeded/LOG.jsonl

- `first_failing_lemmas` is what was observed: the lemmas at which the build of the
  edited copy stopped.
- In entries that have `first_failing_lemmas`, `theorems_failed` was not observed one by
  one.  A script lists the theorems whose text or proof mentions a failing lemma, directly
  or through others.  It shows which proofs no longer go through as written.  It does not
  show that each of these statements is false of the edited program.
- A lemma may also fail because its proof script no longer fits, so "killed" is weaker
  than "refuted".
- `claim` was written before the run and its property numbers are sometimes wrong (C37,
  C38 and C39 for packets that C19 to C21 describe).  The theorems listed are then of other
  properties.
- Entries with the note "survived" are edits that no theorem noticed.  Where a theorem was
  added afterwards, the note says whether the edit was run again.  Known gaps of the last
  runs: which of two equal keys of a map wins, the quotation marks of an encoded log level,
  the end of a log line, and five tables of event names and node classes in `PolModel`.
