# Design

Subject: nasa/HDTN at the pinned commit in `/repo` (C++). The sandbox can neither build nor run it;
the model below was written by reading the source. Prover: Coq 8.16.1.

## Layout

* `rocq/theories/M_*.v` — models: total computable Gallina functions, one per C++ function, each with a
  comment citing file and lines. No proofs.
* `rocq/theories/S_*.v` — specification vocabulary of the larger properties, independent of the model's helpers.
* `rocq/theories/L_*.v` — lemmas, invariants.
* `rocq/theories/P_*.v` — property theorems: each theorem closed by a lemma, an `Example` meeting its
  hypotheses beside it, and `Print Assumptions` under it. `_partial` and `_refuted` suffixes as in the task.
* `MANIFEST.json` maps properties to theorems (written by `tools/mkmanifest.py` from the theorem names and
  `tools/notes.json`); `seeded/LOG.jsonl` records wrong-program experiments.
  In it `first_failing` is the lemma or theorem whose script first fails on the edited model and
  `theorems_failed` are the theorems that can no longer be proved through it. A failing script does not by
  itself show a theorem false; where the edit was found to leave every stated theorem true the line says so in
  `note` and lists no theorem.

## Conventions

* Unsigned machine integers are `N`; wrap-around (`mod 2^64`) is written wherever the C++ can wrap and the
  property is sensitive to it. Otherwise the absence of wrap is a stated hypothesis.
* Undefined behaviour (out-of-range index, empty `back()`, bit scan of zero) and exceptions are a distinct
  outcome (`None`/`Undef`), never silently totalised.
* A value the code leaves unspecified (stale memory, random numbers, hash functions, allocator behaviour, the
  clock, thread schedule) is a universally quantified parameter.
* `std::set`/`std::map` are sorted lists with the C++ comparator; iteration is list order.
* Logging, telemetry counters, memory reservation and allocator types are not modelled.

## Per-property plan

| id | modelled code | method |
|----|---------------|--------|
| C01 | FragmentSet insert on sorted interval lists with the wrapping comparator | refinement to sets of N, induction over op lists |
| C02 | find with both comparators, GetOverlap | canonical-form lemmas |
| C03 | RemoveFragment loop incl. early return | exact characterisation; the unconditional claim is false of the code (refuted with witness), true when no stored fragment ends at begin-1 |
| C04 | GetBoundsMinusFragments | loop invariant over the fragments |
| C05 | PopulateReportSegment | induction over the set |
| C06 | SplitReportSegment | induction over chunks |
| C07 | AddReportSegment*, ReduceReportSegments | refinement to sets |
| C08-C10 | MemoryManagerTreeArray, bitmap rows as functions index -> word | tree invariant (summary bit set iff child non-zero), refinement to the set of allocated ids |
| C11,C12 | Sdnv.cpp classic, fast and array routines on byte lists | round trip; equality of algorithms |
| C13,C35 | CborUint.cpp, single and array routines | round trip; equality |
| C14 | circular index buffer, each load/store of the two shared indices one atomic step | invariant over all interleavings |
| C15 | HashMap16BitFixedSize, 65536 sorted buckets | refinement to a finite map |
| C16,C17 | BundleStorageCatalog/CatalogEntry | refinement/invariant |
| C18 | CustodyIdAllocator on top of the FragmentSet model | invariant over histories |
| C19 | CustodyTimers with explicit clock | invariant over histories |
| C20 | BundleStorageManagerBase with the disk threads, every step interleaved | refinement to a map from custody id to bytes |
| C21 | RestoreFromDisk on an arbitrary image, and restarts of reachable stores | exact characterisation of restorable images |
| C22 | NextFirstPassDataToSend | iteration invariant |
| C23 | receiver DataSegmentReceivedCallback (memory back-end) | invariant |
| C24 | sender + receiver + lossy multiset network | global invariant |
| C25 | LtpSessionRecreationPreventer | refinement to "last N accepted" |
| C26 | LtpRandomNumberGenerator bit fields | N bit arithmetic |
| C27 | LtpTimerManager | invariant |
| C28 | Ltp.cpp rx state machine and generators | simulation against a byte-driven automaton |
| C29 | ACS fills | round trip on top of C01, C11 |
| C30 | ForwardListQueue | refinement to list |
| C31 | TokenRateLimiter | telescoping invariant |
| C32 | Bpv6Fragmenter payload ranges / AssemblePayload, Bpv6FragmentManager | arithmetic + C01 |
| C33 | slip.c | simulation |
| C34 | Tcpcl.cpp | simulation |
| C36 | Uri.cpp | exact characterisation of both directions, round trip |
| C37 | Bpv6CbhePrimaryBlock.cpp | wire-format relation, exact parse, exact write, round trip |
| C38 | Bpv6CanonicalBlock.cpp, Bpv6ExtensionBlocks.cpp, Bpv6MetadataExtensionBlock.cpp, Bpv6AdministrativeRecords.cpp | the same, per block class |
| C39 | BundleViewV6.cpp | exact Load, exact Render, edits keep views sendable |
| C40 | libcgr.cpp dijkstra and Route | label-setting invariant over journeys |
| C41 | libcgr.cpp cmr_dijkstra, ContactMultigraph | the same for a queue with stale entries; sortedness of adjacencies; binary search |
| C42 | router.cpp: link states, routes, messages | invariant over all executions of the handlers; C40 for each recomputation |
| C43 | router.cpp: contact plan timer, storage timer | schedule as a fold of events per link; invariants over pending waits |
| C44 | Bpv7Crc.cpp | polynomial remainders over the two-element field; linearity for burst detection |
| C45 | Bpv7CbhePrimaryBlock.cpp, Cbhe.cpp (BPv7 part), TimestampUtil.cpp (bpv7 time) | wire-format relation, exact parse, exact write, round trip |
| C46 | Bpv7CanonicalBlock.cpp, Bpv7ExtensionBlocks.cpp | the same per block class; patching in place |
| C47 | Bpv7AdministrativeRecords.cpp | status reports and BIBE PDUs: exact acceptance, exact write, round trip, equality |
| C48 | Bpv7BpSecExtensionBlocks.cpp | BIB/BCB abstract security blocks: exact acceptance, exact write, round trip, parameters and results, equality; overrun refuted |
| C49 | BundleViewV7.cpp | exact Load, exact Render, round trip, RenderInPlace, edits keep views sendable, block numbers; six refutations |
| C50 | ingress/src/receive.cpp: ProcessPaddedData up to the message to be sent | exact outcome per version on top of C39, C49; what the next node sees; hop counts over whole journeys; six refutations |
| C51 | ingress/src/receive.cpp: the rest of ProcessPaddedData, BundlePipelineAckingSet, ReadZmqAcksThreadFunc, RouterEventHandler | one fate per bundle, exact pipelines, limits, memory, losses, routes, over all interleavings of threads and messages; six refutations |
| C52 | storage/src/ZmqStorageInterface.cpp: ThreadFunc and all it calls | counters, limits, acks, removals, round robin over all sequences of events and failures; one place per stored bundle under stated rules for the others; fifteen refutations |
| C53 | common/util/src/TcpAsyncSender.cpp; sending side of TcpclV3BidirectionalLink.cpp, TcpclV4BidirectionalLink.cpp, StcpBundleSource.cpp | what is reported as sent and as failed over all interleavings; exact on one connection with an honest peer; eleven refutations |
| C54 | module/egress/src/EgressAsync.cpp; what it uses of common/outduct_manager/src/OutductManager.cpp | ledgers of answers and bundles, truth of what is sent, links, telemetry, routes over all sequences of messages, callbacks and failing sends; outducts constrained as stated; twelve refutations |
| C55 | the two modules of C52 and C54 joined by the sockets between them | invariant over all interleavings: the assumptions of C52 about egress are discharged by C54 and the other way round; where each stored bundle is; what removal means; routes; four refutations |
| C56 | bundle views as what C39 loads and sends, decisions and flushes as histories | lemma on records: every administrative record is rendered and loads back (C38, C39); invariant over histories: the pending fills are the ids decided on since the last flush (C29); two refutations |
| C57 | histories of threads that ask for vectors and of bundles secured; bytes read back as numbers | invariant: the vectors of a thread are (time + uses / 2^w, uses mod 2^w); disjoint ranges of threads; two refutations |
| C58 | rules as patterns that endpoints fit, choice field by field by specificity | invariant: the filters hold exactly the entries read so far; texts by C36; three refutations |
| C59 | errors per target as relations on blocks, reactions as a table, outcome of all errors at once | induction over errors from the last target back; per-block steps exact; each step keeps what other blocks' steps need; five refutations |
| C60 | sent bundle as new blocks in front of the old ones, targets as sets of blocks by type, encrypted exactly where targeted | lists of targets characterised by membership; sealing as a map; round trip composed with the C59 steps; seven refutations |
| C61 | header as layout with big-endian value and smallest field; delivered packets by prefixes of the stream; index and vector size of each write | value of byte lists; induction over packets; invariant of the reader over arbitrary streams; four refutations |
| C62 | bundles given to the callback over all interleavings of both threads; data units as an inductive relation on bytes; steps possible between arrivals | invariant (stream = units read, units pending, rest; notification pending; restart pending); decreasing weight; two refutations |
| C63 | delivered datagrams as a subsequence of those that came, with counts of dropped and waiting ones, over all interleavings | invariant (kept = delivered, buffered, being committed; sizes of all vectors; notification pending); decreasing weight; two refutations |
| C64 | bundles as concatenations of packets with their size (a relation on bytes); groups and held packets from the used ones | invariant of the sender over packets; splitting as the inverse of the relation, both directions; four refutations |
| C65 | order of accepted, sent and reported bundles; quiet states; failures and kinds as facts of the events | three invariants of all steps, one of them for executions without failures; four refutations |

## Trusted base

* Coq 8.16.1 kernel, including `vm_compute` where an `Example` or a refutation uses it.
* Axioms: none of our own. `Print Assumptions` prints "Closed under the global context" for every theorem except
  where it lists standard library axioms. (`vcheck` also names the `Coq.ssr.ssrunder.Under_rel` parameters: they are
  loaded with the standard library's ssreflect support, no theorem depends on them.)
* The fidelity of the hand-written model to the cited lines. This is not machine checked.

Modelled, with these simplifications (each is also stated where the definition is):

* `M_Intrin`: the meaning given to the x86 intrinsics used by the vectorised SDNV code is trusted. A 16 or 32 byte load
  reading outside the buffer is undefined unless the code's own padding rules allow it.
* `M_Spsc`: sequentially consistent interleaving of atomic loads and stores of the two indices.
* `M_HashMap`: hash function arbitrary; allocation never fails; moves are copies. `M_Flq`: node addresses explicit.
* `M_Catalog`: a uuid pointer is the key it points to; the primary block is reduced to the fields used; addresses of freed
  entries are chosen arbitrarily; GetStorageExpiringBeforeThresholdTelemetry is not modelled.
* `M_CustTimers`: ptime is a number of microseconds; list nodes have addresses.
* `M_Acs`, `M_Bpv6Frag`: the bundle around the signal or fragment is reduced to the fields used.
* LTP sessions (`M_LtpSender`, `M_LtpReceiver`, `M_LtpSystem`): memory back-end only; timers are nondeterministic expiries;
  segments are records (`M_LtpCodec` is the codec); session deletion and cancel segments are not modelled; the network of
  `M_LtpSystem` may lose, duplicate and reorder but not corrupt.
* `M_LtpIds`: the random source returns arbitrary 64-bit values; unordered_set is a list.
* `M_LtpTimers`: asio deadline_timer semantics on one io thread; callbacks split into begin and return.
* `M_Slip`: UART reads return any split; bounds of the output buffer are the caller's.
* `M_Tcpcl`, `M_LtpCodec`: callbacks are set and do not touch the object; contents of vector storage behind its elements
  (`junk`), allocation success (`alloc_ok`) and reuse of earlier packets' memory (`reuse`) are parameters. Branches not
  compiled on x86-64 with the vectorised SDNV code are not modelled.
* `M_Storage`, `M_Restore`: per-disk FIFO lists (the index buffer is `M_Spsc`); header records instead of bytes; disk I/O
  errors not modelled; the catalog is the custody id map; files exist and open; holes read as zeros; whole blocks.
* `M_Uri`: printf, boost::format and boost::lexical_cast behave as the C and Boost documentation say in the classic
  locale. The iterator overload of ParseIpnSspString, which nothing calls, is left out.
* `M_Bpv6Block`, `M_BundleV6`: buffers are the bytes they hold, so aliasing of a block's data with the render target is
  not expressed; recycling of block objects, members left over by a failed parse and the view after a failed call are not
  modelled; data pointers given to the extension block parsers are not NULL. Serializers write into a memory of given
  length, writing past it is undefined. Vector growth after Render is explicit (`RenderedMoved`).
* `M_Bpv7Crc`: boost::crc_optimal is taken to do what its documentation says (bitwise register), the SSE4.2 instructions what
  the Intel manual says. Little-endian loads.
* `M_Bpv7Block`: buffers are the bytes they hold (no aliasing of data with the target); members left over by a failed parse
  are not modelled. Serializers write into a memory of given length, writing past it is undefined; the nine byte stores of
  the CBOR encoder leave arbitrary bytes behind, which the model computes.
* `M_Bpv7Admin`: the encapsulated bundle pointer is not NULL; content and type code of a record agree (type 1 with a report,
  3 with a BIBE PDU, others without content); members the parser does not assign are an arbitrary old object's.
* `M_Bpv7Sec`: parameter and result pointers are not NULL; the reader works on the memory from the block's data to the
  end of the allocation with an explicit 64-bit `bufferSize` that wraps, so that reads past the data show. When `bufferSize`
  is larger than the memory and fewer bytes remain than an item could have, the model says None (reads outside) even if the
  item would be short. SetZero, moves, JSON and the cryptography (common/bpsec) are not modelled.
* `M_BundleV7`: buffers the view points into are the bytes they hold plus a flag that they are alive; all blocks share the
  parameter standing for their address; recycling of block objects is reduced to arbitrary leftover members; sums of sizes
  in memory do not wrap; m_applicationDataUnitStartPtr, the pointers in the map of encrypted blocks and the object after a
  failed Load or Render(maxBundleSizeBytes) are not modelled. In RenderInPlace the last block is taken to lie at the end.
* `M_Ingress`: the program built without BPSec and masking (or a bundle to which no policy applies); what is logged about pings is
  left out; the members of an encrypted hop count block are arbitrary leftovers; the echo bundle's buffer is as in
  `M_BundleV6`. Not checked by the code and so not part of any statement: lifetime and bundle age.
* `M_Dispatch`: each step of a thread is one critical section or one send; a send of two parts succeeds or fails as a whole; how
  waits end is the environment's choice; telemetry excludes threads between the look-up of the route and the end, as the shared
  mutex does; the opportunistic link takes the bundle or leaves it. The 64 bit unique id is assumed not to wrap around, bundles to be
  smaller than 2^63 bytes. `honest` runs are those in which egress and storage acknowledge only what they were sent, once.
* `M_StorageIf`: one step per event of the single thread; the catalog, the custody ids and the timers are the abstractions C16-C19 justify,
  and using them outside those contracts is undefined; what a loaded bundle contains, which ids are issued, and whether a read, a
  write or a send succeeds are the environment's choices; a send succeeds or fails as a whole. Bytes, the generation of custody
  signals and status reports, start-up with a restored disk, sockets and telemetry requests are not modelled. `honest` lists what the
  strongest theorems expect of egress, of custody signals, of the disk and of issued ids.
* `M_TcpSender`: every event of the two threads is one step; Forward enters its record and posts its elements in one step; a connection is
  replaced only when nothing is posted and no write is pending; user data is a number. Bytes of messages (C34), negotiation, timers, TLS,
  the receiving side, the vector overloads of Forward and telemetry are not modelled.
* `M_Egress`: one message or one callback is one step, except that the link status callback is also modelled access by access (there it
  races). A send of one or two parts succeeds or fails as a whole; the loops that repeat a send succeed; the inproc socket has room. What
  an outduct does is the environment's choice; `fair` says what the strongest theorems expect of it (C53 shows which TCP outducts do not
  meet it). Ghost fields record lost answers, dropped bundles and calls of Forward. Not modelled: sockets' Init, Stop, wrong-sized and
  unknown messages, most telemetry requests, counters, LTP pings, JSON, the outducts' Init.
* `M_StoreEgress`: the states of `M_StorageIf` and `M_Egress` and two counters of messages read; a step is a step of one of them or the
  reading of the next message. Sockets neither lose nor reorder what was accepted for sending; a refused send is a step's choice, as in the
  two models. Restarts of either module are not modelled. `S_StoreEgress.allowed` states what is left to the environment.
* `M_Custody`: CustodyTransferManager.cpp on the views of `M_BundleV6`. The clock, the memory behind new vectors and its contents are
  parameters of each step. The seven status bytes are constants (they are never changed). Custody ids are below 2^64-1. The statements about
  handing on hold for blocks whose flags took one byte (see C39 for the others) and primary blocks that fit their length byte. Not modelled:
  copyAcsOnly and GetAcsConstRef (tests only), the objects after a returned false, the callers' timers and limits (storage flushes when a
  signal has more fills than acsMaxFillsPerAcsPacket, 100 by default).
* `M_Iv`: the machine is little-endian; Create is atomic (its mutex); clock readings are arbitrary; of TryEncryptBundle only which
  blocks are encrypted, with what key and vector. The cipher is not modelled.
* `M_Policy`: the checks of a rule's names, parameters and keys are one flag; everything a policy copies but its target types is one
  number; target sets are lists of types; the three roles only; what is left after a load that failed is not modelled.
* `M_PolicyRx`: `ProcessReceivedBundle` of `BpSecPolicyManager`, its failure events, and the two functions of `BpSecBundleProcessor` that
  decrypt and verify, without the cryptography: whether a check before the loop over the targets fails, whether each target can be decrypted or its HMAC is right, and what
  a decrypted security block says, is given by an oracle (quantified). Contents of other blocks, reencoding and statistics are not modelled.
  Security blocks are of the class of their type (their casts succeed). Policies for confidentiality that name confidentiality blocks
  as targets (against RFC 9172) and target types above 63 (shift out of range) are excluded by `sane`.
* `M_PolicyTx`: `FindPolicyAndProcessOutgoingBundle` of `BpSecPolicyManager` as ingress calls it (the overload with a `BundleView`), the
  functions of `BpSecBundleProcessor` that it calls to add integrity and to encrypt, and what `RenderInPlace` does to the blocks.
  Cryptography is ideal: an HMAC is the bytes it is over, an encrypted block keeps its bytes and is marked. Whether keys can be used and
  whether there is room are parameters (`world`). Byte strings are numbers. The scope of HMACs beyond the target, IVs (C57) and the
  second overload (with manually assigned block numbers, for generated bundles) are not modelled.
* `M_Encap`: `GetCcsdsEncapHeader`, the two decoding functions, and reading in `EncapAsyncDuplexLocalStream` (callbacks of `async_read`,
  `m_readStarted`, the receive vector's size and the index of each byte written). `async_read` is taken to read exactly what is asked
  for; connecting, shutting down, sending and errors of the stream are not modelled. Callbacks restart reading at once, as all users but
  `EncapRepeater` do. Bytes written outside of the vector are shown as such and not followed further.
* `M_Stcp`: `StcpBundleSink` as two threads that interleave at the statements that touch shared state (index reads, commits, mutex,
  condition variable, posted calls). Sequentially consistent; the circular index buffer is a queue of one less than its size (C14 is
  about the buffer). The constructor runs in the io_service thread, as in `StcpInduct`. Errors, the end of the connection and deletion
  of the sink are not modelled; nor is what the callback does.
* `M_UdpSink`: `UdpBundleSink` in the same way; the vectors of the circular buffer are listed from its start index on, those with a
  datagram first. What a callback leaves in the vector it is given is arbitrary. A datagram longer than the buffer is cut without error,
  as by recvmsg on POSIX. Losses in the network and the operating system, errors, shutting down and endpoints are not modelled.
* `M_RtpStream`: packets through `BpSendStream` (use of a packet, frame, group, bundle) and out of a payload in `BpReceiveStream`. The
  two circular buffers of the sender and that of the receiver (which drop the oldest when full), the threads around them, GStreamer and
  the sockets are not modelled. `size_t` has 8 bytes, least significant first.
* `M_UdpSource`: `UdpBundleSource` from `OnResolve` to `DoHandleSocketShutdown`: Forward, the posted handlers, the two queues, the token timer and
  the completions. Forward is one step (its entry is in the ring before the handler is posted, and one thread calls it). What `TakeTokens` and
  `HasFullBucketOfTokens` say is arbitrary (C31 is about them). Completions come in the order in which the sends were started; a datagram is sent whole
  or not at all. The rate limit is on or off for the whole execution (`UpdateRate` is not modelled), nor are errors of resolving, the cancelled timer
  and the destructor. `EgressAsync` gives only zmq messages to the outduct, so the two refutations with two kinds of messages concern other callers.
* `M_Cgr`: contacts as cp_load makes them (confidence 1, nothing suppressed, mav is the volume); a Contact pointer is the
  root or a position in the plan; reading plans from JSON, printing and the confidence of a route are not modelled;
  the order of a hash map's entries is a parameter.
* `M_Router`: handlers run one at a time (the telemetry thread, which in the code calls rerouting without a lock, is taken to
  be serialised with the io thread); sending succeeds; numbers in a plan are not negative; the clock does not go back.

Not modelled at all: sockets, ZMQ, threads other than where stated, logging, telemetry, file I/O errors, configuration
parsing, BPSec cryptography, the web and command interfaces.
