{"id": "C01", "title": "Inserting fragments yields exactly the union, in canonical form", "statement": "After any sequence of InsertFragment calls (each with begin <= end < 2^64-1) on an initially empty fragment set, an index is covered by some stored fragment iff it is covered by some inserted fragment; stored fragments are sorted, pairwise disjoint and never adjacent; and each call returns true iff the covered index set grew.", "quantifier": "every finite sequence of inserted ranges, in every order, with any overlaps, duplicates and adjacency", "why_tests_cant": "the number of overlap/abut patterns is unbounded; a test exercises a handful of layouts, while one unmerged pattern corrupts LTP reports and custody accounting", "anchors": ["common/util/src/FragmentSet.cpp", "common/util/include/FragmentSet.h", "FragmentSet::InsertFragment", "FragmentSet::data_fragment_t::operator<"]}
{"id": "C02", "title": "Fragment-set queries answer exactly containment and overlap", "statement": "For a fragment set built by insertions, ContainsFragmentEntirely(key) is true iff every index of key is covered; DoesNotContainFragmentEntirely(key) is true iff no index of key is covered; FragmentSetsHaveOverlap is true iff some index is covered by both sets; GetOverlap returns true iff the two ranges intersect and then yields precisely the intersection.", "quantifier": "all reachable fragment sets and all keys", "why_tests_cant": "the queries run a std::set search under a comparator under which overlapping keys are 'equivalent'; correctness for every tree shape and key is not sampled by tests", "anchors": ["common/util/src/FragmentSet.cpp", "common/util/include/FragmentSet.h", "FragmentSet::ContainsFragmentEntirely", "FragmentSet::DoesNotContainFragmentEntirely", "FragmentSet::FragmentSetsHaveOverlap", "FragmentSet::data_fragment_t::GetOverlap"]}
{"id": "C03", "title": "Removing a range uncovers exactly that range", "statement": "After RemoveFragment(key), an index is covered iff it was covered before and is not inside key; the set stays canonical; the call returns true iff coverage changed.", "quantifier": "all reachable fragment sets and all keys with begin <= end", "why_tests_cant": "the failing layouts need a fragment ending exactly one before the removed range and another fragment further right; example tests easily miss them", "anchors": ["common/util/src/FragmentSet.cpp", "common/util/include/FragmentSet.h", "FragmentSet::RemoveFragment"]}
{"id": "C04", "title": "Bounds minus fragments is the exact complement", "statement": "GetBoundsMinusFragments(bounds, set) produces a canonical fragment set covering exactly the indices of bounds that set does not cover.", "quantifier": "all bounds and all canonical fragment sets", "why_tests_cant": "unbounded number of fragment layouts; LTP retransmission relies on no missing byte being skipped and no acknowledged byte being resent", "anchors": ["common/util/src/FragmentSet.cpp", "common/util/include/FragmentSet.h", "FragmentSet::GetBoundsMinusFragments"]}
{"id": "C05", "title": "LTP report segments claim exactly the received data in their scope", "statement": "A report segment populated for scope [lower, upper) from the set of received ranges has claims that are non-empty, strictly ordered, disjoint, inside the scope, and whose union is exactly the received bytes inside the scope.", "quantifier": "every set of received ranges and every scope, including auto-detected bounds", "why_tests_cant": "an over-claim silently loses data at the receiver and an under-claim causes endless retransmission; both need particular scope/range alignments", "anchors": ["common/ltp/src/LtpFragmentSet.cpp", "LtpFragmentSet::PopulateReportSegment"]}
{"id": "C06", "title": "Splitting a large LTP report loses and invents nothing", "statement": "SplitReportSegment with max claims m >= 1 on a non-empty well formed report yields reports each with 1..m claims whose scopes partition the original scope consecutively and whose claims (as absolute ranges) concatenate to the original claims, each lying in its own report's scope.", "quantifier": "every well formed report and every m >= 1", "why_tests_cant": "claim counts and m are unbounded; a wrong scope boundary makes the sender resend or forget bytes", "anchors": ["common/ltp/src/LtpFragmentSet.cpp", "LtpFragmentSet::SplitReportSegment"]}
{"id": "C07", "title": "The LTP sender retransmits exactly the unacknowledged bytes of the reported scopes", "statement": "From any collection of pending reports and the set of acknowledged bytes, ReduceReportSegments yields per-report ranges that together cover exactly the bytes lying in some reported scope and not acknowledged, each byte in exactly one report's list; AddReportSegmentToFragmentSet(NeedingResent) cover exactly the claimed bytes / the unclaimed bytes of the scope.", "quantifier": "all pending report maps, all acknowledged sets, all well formed reports", "why_tests_cant": "depends on arbitrary overlapping scopes from the network", "anchors": ["common/ltp/src/LtpFragmentSet.cpp", "LtpFragmentSet::ReduceReportSegments", "LtpFragmentSet::AddReportSegmentToFragmentSet", "LtpFragmentSet::AddReportSegmentToFragmentSetNeedingResent"]}
{"id": "C08", "title": "The disk segment allocator never hands out a segment that is in use and always hands out the lowest free one", "statement": "For every history of allocate, reserve and free calls, an allocation returns the smallest segment id below the capacity that is currently not allocated, and returns FULL iff none exists; IsSegmentFree and the allocated count always agree with the history.", "quantifier": "all capacities up to 2^32-4 and all call histories", "why_tests_cant": "a 6-level bitmap tree has astronomically many states; a stale summary bit shows up only after particular fill/free patterns", "anchors": ["module/storage/src/MemoryManagerTreeArray.cpp", "MemoryManagerTreeArray::GetAndSetFirstFreeSegmentId_NotThreadSafe", "MemoryManagerTreeArray::FreeSegmentId_NotThreadSafe", "MemoryManagerTreeArray::AllocateSegmentId_NotThreadSafe", "MemoryManagerTreeArray::IsSegmentFree", "MemoryManagerTreeArray::GetNumAllocatedSegments_NotThreadSafe"]}
{"id": "C09", "title": "Allocating several segments is all-or-nothing", "statement": "AllocateSegments(n) succeeds iff at least n segments are free, then yielding n distinct previously free ids; on failure every segment has the same allocated/free status and the count is the same as before the call.", "quantifier": "all allocator states and all n", "why_tests_cant": "failure happens only when the store is nearly full; the rollback must restore an exact state", "anchors": ["module/storage/src/MemoryManagerTreeArray.cpp", "MemoryManagerTreeArray::AllocateSegments_ThreadSafe"]}
{"id": "C10", "title": "Freeing and reserving are exact and reject misuse", "statement": "FreeSegmentId succeeds iff the id is currently allocated and then makes only that id free; AllocateSegmentId succeeds iff the id is in range and free and then takes only that id; failed calls change nothing observable.", "quantifier": "all histories and all ids", "why_tests_cant": "double free and double reserve detection must hold in every state, including after a crash restore", "anchors": ["module/storage/src/MemoryManagerTreeArray.cpp", "MemoryManagerTreeArray::FreeSegmentId_NotThreadSafe", "MemoryManagerTreeArray::AllocateSegmentId_NotThreadSafe"]}
{"id": "C11", "title": "SDNV encoding round-trips and decoding is memory safe", "statement": "For every unsigned 64-bit value v and buffer of sufficient size, SdnvEncodeU64 writes the minimal-length RFC 6256 encoding and SdnvDecodeU64 on it followed by arbitrary bytes returns v and the encoded length; on any byte string decode either fails or consumes at most the buffer and at most 10 bytes and returns the big-endian base-128 value, with overflow beyond 64 bits rejected.", "quantifier": "all 2^64 values and all byte strings", "why_tests_cant": "2^64 values and unbounded byte strings cannot be enumerated; overflow at the 10th byte is a corner case", "anchors": ["common/util/src/Sdnv.cpp", "SdnvEncodeU64Classic", "SdnvDecodeU64Classic", "SdnvGetNumBytesRequiredToEncode"]}
{"id": "C12", "title": "Fast (vectorised) SDNV codecs agree with the reference ones", "statement": "For every value and every input buffer, the fast SDNV encode/decode routines return the same value, the same size and the same success/failure as the classic byte-at-a-time routines; array decoding returns the same values as decoding one at a time.", "quantifier": "all 64-bit values, all byte strings, all element counts", "why_tests_cant": "the fast path dispatches on bit tricks (pext/pdep, masks); equivalence over all inputs is beyond testing", "anchors": ["common/util/src/Sdnv.cpp", "SdnvEncodeU64Fast", "SdnvDecodeU64Fast", "SdnvDecodeArrayU64"]}
{"id": "C13", "title": "CBOR unsigned integers round-trip in shortest form and decoding is safe", "statement": "CborEncodeU64 of any v < 2^64 emits the shortest RFC 8949 major-type-0 form and CborDecodeU64 on it followed by arbitrary bytes returns v and the same length; decoding any byte string either fails (size 0) or consumes no more bytes than available; fast and classic variants agree.", "quantifier": "all 2^64 values and all byte strings", "why_tests_cant": "value space and byte-string space are not enumerable; boundary errors at 23/24, 2^8, 2^16, 2^32", "anchors": ["common/util/src/CborUint.cpp", "CborEncodeU64Classic", "CborDecodeU64Classic", "CborEncodeU64Fast", "CborDecodeU64Fast"]}
{"id": "C14", "title": "Single-producer single-consumer circular index buffer is safe under every interleaving", "statement": "With one producer (GetIndexForWrite, write slot, CommitWrite) and one consumer (GetIndexForRead, read slot, CommitRead) interleaved in any way, the consumer observes exactly the committed items in order, none lost or duplicated, the producer is never given a slot the consumer has not released, and capacity is size-1.", "quantifier": "all interleavings of all finite producer and consumer programs and all buffer sizes >= 2", "why_tests_cant": "data races depend on schedules that tests hit only by luck", "anchors": ["common/util/src/CircularIndexBufferSingleProducerSingleConsumerConfigurable.cpp"]}
{"id": "C15", "title": "The storage hash map behaves as a finite map", "statement": "For every history of Insert, GetValueAndRemove, GetValuePtr and Clear, lookups return the value inserted and not yet removed for exactly that key; inserting an existing key is refused and changes nothing, regardless of hash collisions.", "quantifier": "all histories, keys and hash collisions", "why_tests_cant": "collision chains of arbitrary length and order", "anchors": ["module/storage/src/HashMap16BitFixedSize.cpp", "HashMap16BitFixedSize::Insert", "HashMap16BitFixedSize::GetValueAndRemove", "HashMap16BitFixedSize::GetValuePtr"]}
{"id": "C16", "title": "Stored bundles are released highest priority first, then earliest expiry, then in arrival order", "statement": "Popping for a set of available destinations returns a stored bundle for one of those destinations with no higher-priority bundle waiting for them, no earlier expiring one of the same priority, and among bundles with the same destination, priority and expiry the one queued first; it returns nothing iff no bundle is waiting for them.", "quantifier": "all catalog histories and destination lists", "why_tests_cant": "ordering is over unbounded histories and destination sets", "anchors": ["module/storage/src/BundleStorageCatalog.cpp", "module/storage/src/CatalogEntry.cpp", "BundleStorageCatalog::PopEntryFromAwaitingSend", "BundleStorageCatalog::CatalogIncomingBundleForStore"]}
{"id": "C17", "title": "A stored bundle is never queued twice and never popped after removal", "statement": "In every history in which custody ids are unique, each catalogued bundle is waiting in at most one queue position, popped bundles are not waiting until returned, and after removal neither its custody id nor its uuid resolves to anything.", "quantifier": "all histories of catalog, pop, return, remove", "why_tests_cant": "needs all interleavings of these operations", "anchors": ["module/storage/src/BundleStorageCatalog.cpp", "module/storage/src/CatalogEntry.cpp", "BundleStorageCatalog::ReturnEntryToAwaitingSend", "BundleStorageCatalog::Remove", "BundleStorageCatalog::RemoveEntryFromAwaitingSend"]}
{"id": "C18", "title": "Custody ids in use are never issued again", "statement": "For every history in which only ids in use (issued or registered at start-up, and not yet freed) are freed, GetNextCustodyIdForNextHopCtebToSend never returns an id that is issued and not yet freed, nor one registered as used at start-up and not yet freed.", "quantifier": "all histories of issue/free/range-free across any number of source endpoints and any restored ids", "why_tests_cant": "uniqueness across block recycling appears only after hundreds of allocations and particular free orders", "anchors": ["common/bpcodec/src/codec/CustodyIdAllocator.cpp", "CustodyIdAllocator::GetNextCustodyIdForNextHopCtebToSend", "CustodyIdAllocator::FreeCustodyId", "CustodyIdAllocator::FreeCustodyIdRange"]}
{"id": "C19", "title": "Custody transfer timers expire in order, once, and not after cancellation", "statement": "Polling returns a custody id only if its timer was started, has reached its deadline, and has been neither cancelled nor already returned; ids for one destination are returned in start order (polling for given destinations takes the earliest deadline among them); if an expired timer exists a poll returns one.", "quantifier": "all histories of start/cancel/poll with nondecreasing clock", "why_tests_cant": "timer histories are unbounded and time dependent", "anchors": ["module/storage/src/CustodyTimers.cpp", "CustodyTimers::StartCustodyTransferTimer", "CustodyTimers::CancelCustodyTransferTimer", "CustodyTimers::PollOneAndPopAnyExpiredCustodyTimer"]}
{"id": "C20", "title": "A bundle written to storage is read back byte for byte", "statement": "After pushing all segments of a bundle of any size, reading all segments returns exactly the bundle bytes, for any interleaving with other stored bundles and any number of disks.", "quantifier": "all bundle sizes and contents, all other stored bundles, all disk counts", "why_tests_cant": "segment-boundary arithmetic over all sizes and disk counts", "anchors": ["module/storage/src/BundleStorageManagerBase.cpp", "BundleStorageManagerBase::PushAllSegments", "BundleStorageManagerBase::ReadAllSegments"]}
{"id": "C21", "title": "Storage recovery after a crash restores every fully written, undeleted bundle and nothing else", "statement": "If the process stops after any prefix of disk segment writes, restoring from disk rebuilds a catalog containing each bundle whose segments were all written and whose head was not erased, with the same segment chain, and never attributes a segment to two bundles.", "quantifier": "all crash points in all histories of pushes and removals", "why_tests_cant": "crash points are between any two disk writes in any history", "anchors": ["module/storage/src/BundleStorageManagerBase.cpp", "BundleStorageManagerBase::RestoreFromDisk", "BundleStorageManagerBase::RemoveBundleFromDisk"]}
{"id": "C22", "title": "LTP first-pass transmission tiles the block", "statement": "The data segments an LTP sender emits on first pass cover the block bytes [0, L) consecutively without gap or overlap, each no longer than the MTU, red before green and never mixing colours; exactly one segment carries the end-of-red-part mark and exactly one, the last, the end-of-block mark; every checkpoint has a distinct serial number.", "quantifier": "all block lengths, red lengths, MTUs and checkpoint intervals", "why_tests_cant": "boundary combinations of lengths and MTU are unbounded", "anchors": ["common/ltp/src/LtpSessionSender.cpp", "LtpSessionSender::NextFirstPassDataToSend"]}
{"id": "C23", "title": "The LTP receiver delivers the exact red part exactly once", "statement": "If the data segments received for a session are pieces of one block (in any order, with any losses and duplicates), then the red-part callback is invoked at most once, only when all red bytes have arrived, and with exactly the bytes of the block's red part; once every red byte and the end-of-red-part mark have arrived it has been invoked.", "quantifier": "all segmentations, arrival orders, duplicates and losses", "why_tests_cant": "the delivery orders are unbounded", "anchors": ["common/ltp/src/LtpSessionReceiver.cpp", "LtpSessionReceiver::DataSegmentReceivedCallback"]}
{"id": "C24", "title": "An LTP sender reports completion only if the receiver has all red data", "statement": "In any execution of a sender and receiver over a network that may drop, duplicate, delay and reorder segments, transmission completion is signalled only after the receiver holds every red byte.", "quantifier": "all network schedules", "why_tests_cant": "distributed interleavings", "anchors": ["common/ltp/src/LtpSessionSender.cpp", "common/ltp/src/LtpSessionReceiver.cpp", "common/ltp/src/LtpFragmentSet.cpp", "LtpSessionSender::ReportSegmentReceivedCallback"]}
{"id": "C25", "title": "LTP session recreation prevention remembers exactly the last N sessions", "statement": "AddSession refuses a number iff it is among the N most recently accepted distinct ones.", "quantifier": "all histories and all N >= 1", "why_tests_cant": "unbounded histories of a circular buffer", "anchors": ["common/ltp/src/LtpSessionRecreationPreventer.cpp", "LtpSessionRecreationPreventer::AddSession", "LtpSessionRecreationPreventer::ContainsSession"]}
{"id": "C26", "title": "LTP session numbers are well formed and locally unique", "statement": "Generated session numbers embed the engine index recoverably, never equal a reserved ping session number of any engine, are never zero, and any 2^24-1 consecutive ones from one generator are pairwise distinct whatever the random source returns; generated serial numbers are never zero and leave room below 2^63.", "quantifier": "all random outputs and all positions in the sequence", "why_tests_cant": "random outputs and 2^24 period cannot be enumerated together", "anchors": ["common/ltp/src/LtpRandomNumberGenerator.cpp"]}
{"id": "C27", "title": "LTP timers fire exactly once in start order unless deleted", "statement": "With equal durations, each started and undeleted timer's callback is invoked once after its deadline, a deleted timer's callback is never invoked, and a duplicate id is refused.", "quantifier": "all histories of start, delete, expiry events", "why_tests_cant": "interleavings of deletions with pending expiry handlers", "anchors": ["common/ltp/src/LtpTimerManager.cpp", "common/ltp/include/LtpTimerManager.h"]}
{"id": "C28", "title": "LTP segment parsing is independent of how the bytes are chunked and inverts generation", "statement": "Feeding the bytes of a generated LTP segment to the receive state machine in any split produces exactly one callback with the original fields and returns to the initial state; the outcome for any byte stream depends only on the bytes.", "quantifier": "all segments, all byte streams, all chunkings", "why_tests_cant": "exponentially many chunkings", "anchors": ["common/ltp/src/Ltp.cpp", "Ltp::HandleReceivedChars", "Ltp::GenerateLtpHeaderPlusDataSegment"]}
{"id": "C29", "title": "Aggregate custody signals carry exactly the acknowledged custody ids", "statement": "Encoding the fills built from any sequence of added custody ids and decoding them yields a set of fills covering exactly those ids; decoding consumes the whole buffer or fails.", "quantifier": "all sequences of custody ids below 2^64-1 and all byte strings", "why_tests_cant": "id sets are unbounded", "anchors": ["common/bpcodec/src/codec/Bpv6AdministrativeRecords.cpp", "Bpv6AdministrativeRecordContentAggregateCustodySignal"]}
{"id": "C30", "title": "The singly linked queue is a FIFO with exact removal", "statement": "For all histories of push_back, push_front, pop, insertion by order and removal, the queue contents equal those of a list under the same operations and back insertion always appends after the true last element.", "quantifier": "all histories", "why_tests_cant": "a stale tail iterator corrupts only particular histories", "anchors": ["common/util/include/ForwardListQueue.h"]}
{"id": "C31", "title": "The token rate limiter never lets through more than its configured budget", "statement": "Over any interval, the tokens taken minus one last overdraft never exceed limit plus rate times elapsed time; CanTakeTokens and TakeTokens agree.", "quantifier": "all histories of AddTime and TakeTokens", "why_tests_cant": "unbounded histories with integer rounding", "anchors": ["common/util/src/TokenRateLimiter.cpp"]}
{"id": "C32", "title": "BPv6 fragmentation tiles the payload", "statement": "Fragmenting a bundle into pieces of at most n bytes yields fragments whose payload ranges cover the original payload consecutively without gap or overlap with consistent offsets and total length, and reassembling them in any order gives the original payload.", "quantifier": "all payload sizes, fragment sizes, orders", "why_tests_cant": "boundary arithmetic over all sizes", "anchors": ["common/bpcodec/src/codec/Bpv6Fragment.cpp"]}
{"id": "C33", "title": "SLIP framing is transparent", "statement": "Encoding any byte string to SLIP and feeding the result to the decoder, in any chunking, yields exactly the byte string and one end-of-frame.", "quantifier": "all byte strings", "why_tests_cant": "all contents including escape bytes in all positions", "anchors": ["common/slip_over_uart/src/slip.c", "common/slip_over_uart/include/slip.h"]}
{"id": "C34", "title": "TCPCL message parsing is independent of TCP chunking", "statement": "For each message generator of TCPCL v3, feeding the generated bytes to the receive state machine in any chunking yields one callback with the original fields.", "quantifier": "all messages and chunkings", "why_tests_cant": "exponentially many chunkings", "anchors": ["common/tcpcl/src/Tcpcl.cpp"]}
{"id": "C35", "title": "CBOR arrays of unsigned integers round-trip and array decoding is exact", "statement": "CborTwoUint64ArrayDeserialize and CborArbitrarySizeUint64ArrayDeserialize succeed exactly on the byte strings that start with an RFC 8949 array of unsigned integers of an accepted length and then return its elements and its encoded length, reading no byte outside the buffer; the serialisers write the shortest-form array, return the predicted size, never write outside the buffer, and round-trip.", "quantifier": "all element lists, all byte strings, all buffer sizes, all maxElements", "why_tests_cant": "unbounded lists and byte strings; truncation can happen at any byte of any element; the too-small-buffer paths are rarely taken", "anchors": ["common/util/src/CborUint.cpp", "CborTwoUint64ArrayDeserialize", "CborTwoUint64ArraySerialize", "CborArbitrarySizeUint64ArraySerialize", "CborArbitrarySizeUint64ArrayDeserialize"]}
{"id": "C36", "title": "The ipn URI text codec is exact and memory safe", "statement": "The text produced for an endpoint id is the canonical ipn:node.service; the announced C-string length and digit counts are exact for every 64-bit number; writing into a buffer of any size never writes outside it and either writes the whole zero-terminated text or reports failure; parsing succeeds exactly on the texts ipn:N.M (with the library's number syntax) and returns their numbers; text and parsing are inverse.", "quantifier": "all 64-bit node and service numbers, all byte strings, all buffer sizes", "why_tests_cant": "2^128 endpoint ids and unbounded input strings; digit-count boundaries lie at every power of ten", "anchors": ["common/util/src/Uri.cpp", "Uri::GetIpnUriString", "Uri::WriteIpnUriCstring", "Uri::GetIpnUriCstringLengthRequiredIncludingNullTerminator", "Uri::GetStringLengthOfUint", "Uri::ParseIpnUriString", "Uri::ParseIpnSspString", "Uri::ParseIpnUriCstring"]}
{"id": "C37", "title": "The BPv6 primary block codec is exact and memory safe", "statement": "Parsing a CBHE primary block succeeds exactly on the byte strings that start with one in the RFC 5050/6260 wire format, returns its fields and consumes exactly it; serializing writes exactly the announced number of bytes in that format with the length filled in, touches at most nine bytes behind, reports failure exactly if the length does not fit its field, and parsing what was written gives the block back.", "quantifier": "all byte strings, all primary blocks with 64-bit members, all memory contents and positions", "why_tests_cant": "fourteen to sixteen variable-length fields with 2^64 values each; truncation can happen at any byte of any field", "anchors": ["common/bpcodec/src/codec/Bpv6CbhePrimaryBlock.cpp", "Bpv6CbhePrimaryBlock::DeserializeBpv6", "Bpv6CbhePrimaryBlock::SerializeBpv6", "Bpv6CbhePrimaryBlock::GetSerializationSize"]}
{"id": "C38", "title": "The BPv6 canonical, extension and administrative block codecs are exact and memory safe", "statement": "Parsing a block header and the data of every block class (custody transfer enhancement, previous hop, bundle age, metadata, status report, custody signal, aggregate custody signal) never leaves the buffer, succeeds exactly on the wire format of the block type and returns what it says; serializing writes exactly the announced number of bytes in the wire format, with the type and flags the class insists on; what is written parses back to the same members.", "quantifier": "all byte strings, all blocks with members within their types, all memory contents", "why_tests_cant": "nested variable-length formats with unbounded lists and strings; every byte can be the truncation point", "anchors": ["common/bpcodec/src/codec/Bpv6CanonicalBlock.cpp", "common/bpcodec/src/codec/Bpv6ExtensionBlocks.cpp", "common/bpcodec/src/codec/Bpv6MetadataExtensionBlock.cpp", "common/bpcodec/src/codec/Bpv6AdministrativeRecords.cpp", "Bpv6CanonicalBlock::DeserializeBpv6", "Bpv6CanonicalBlock::SerializeBpv6"]}
{"id": "C39", "title": "A BPv6 bundle survives loading, editing and rendering", "statement": "BundleViewV6::Load succeeds exactly on well-formed bundles and the view says what the bytes say; after any sequence of appending, prepending, deleting, marking and modifying blocks, Render produces a well-formed bundle with exactly the view's blocks in order, the last-block flag on the last one only, of exactly the announced size, which loads to the rendered view; a bundle loaded and rendered without change is reproduced byte for byte.", "quantifier": "all byte strings, all bundles with any number of blocks, all edit sequences, all buffer contents", "why_tests_cant": "unbounded numbers of blocks and edits, all field widths", "anchors": ["common/bpcodec/src/codec/BundleViewV6.cpp", "BundleViewV6::Load", "BundleViewV6::Render", "BundleViewV6::GetSerializationSize", "BundleViewV6::DeleteAllCanonicalBlocksByType"]}
{"id": "C40", "title": "Contact graph routing finds an earliest route", "statement": "cgr::dijkstra returns a route exactly if data at the source at the given time can get to the destination over contacts of the plan that have not ended and can carry something; the route is such a way, no other arrives earlier, it visits no node twice, and its next node, destination, times and volume are those of its contacts. The search performs no undefined operation and no assertion fails.", "quantifier": "all contact plans of any length with representable times, all sources, destinations and times", "why_tests_cant": "the space of contact plans is unbounded; optimality is a statement about all journeys through the plan", "anchors": ["common/cgr/src/libcgr.cpp", "common/cgr/include/libcgr.h", "cgr::dijkstra", "cgr::Route::append", "cgr::Route::refresh_metrics"]}
{"id": "C41", "title": "Contact multigraph routing finds an earliest route on well-behaved plans", "statement": "On contact plans whose contacts between two nodes do not overlap and have one delay, whose nodes can all be left again, for a source with the smallest node number and no data arriving at the very moment a contact ends, cgr::cmr_dijkstra returns an earliest route visiting no node twice exactly if the destination can be reached, whatever the order of its hash maps. Each of these conditions is needed.", "quantifier": "all contact plans, sources, destinations and hash orders satisfying the conditions", "why_tests_cant": "unbounded plans, optimality over all journeys, unspecified hash order", "anchors": ["common/cgr/src/libcgr.cpp", "cgr::cmr_dijkstra", "cgr::ContactMultigraph", "cgr::contact_search_index", "cgr::contact_search_predecessor"]}
{"id": "C42", "title": "The router's announcements, routes and books agree and routes are refreshed when links change", "statement": "At any time the last link state the router announced for an outduct is its actual state and the last next hop announced for a destination is the one stored; each outduct's list of destinations is exactly those routed over it. When a link comes up every route becomes the first hop of an earliest journey that avoids contacts under way over links that are down (or says there is none); when a link goes down exactly the routes over it are recomputed so; nothing else but a new plan changes routes, and a new plan takes down all links and routes. The router performs no undefined operation.", "quantifier": "all executions: any sequence of link changes, commands, contact plans, depletion reports, timer expiries and handler runs, any number of outducts and contacts, any order of hash containers", "why_tests_cant": "unbounded interleavings of timers and messages; optimality over all journeys; unspecified iteration order", "anchors": ["module/router/src/router.cpp", "Router::Impl::ComputeAllRoutes", "Router::Impl::ComputeOptimalRoutesForOutductIndex", "Router::Impl::UpdateRouteState", "Router::Impl::ProcessContacts", "Router::Impl::OnContactPlan_TimerExpired"]}
{"id": "C43", "title": "Announced link states follow the contact plan, the physical state and storage reports in time", "statement": "Whenever nothing is due, the last link state the router announced for an outduct is up exactly if the link was last reported physically up, a contact of the plan in force with its neighbour is under way, and the neighbour did not report full storage within the configured delay. No event of the schedule is ever forgotten, and no link stays down after the delay, whatever happens. Conditions: a node's contacts with one neighbour do not overlap and abutting ones are listed in order, no link command interferes, no plan is loaded while a timer handler is queued, full neighbours do not report again.", "quantifier": "all executions of the router's handlers and timers, any plans, outducts and times", "why_tests_cant": "unbounded interleavings of timer expiry, handler execution, plan loading and messages in real time", "anchors": ["module/router/src/router.cpp", "Router::Impl::OnContactPlan_TimerExpired", "Router::Impl::AddContact_NotThreadSafe", "Router::Impl::OnStorageFull_TimerExpired", "Router::Impl::HandleNodeWithDepletedStorage"]}
{"id": "C44", "title": "BPv7 checksums are the standard ones on every path and catch short bursts", "statement": "The CRC-16/X-25 and CRC-32C values the BPv7 codec computes are the unique remainders prescribed by the standard polynomials, the SSE4.2 path gives the same value as the software path at every alignment and length, two equally long messages differing only within two (CRC-16) or four (CRC-32C) consecutive bytes never get the same checksum, and a checksum field written by the codec is read back as the same value, anything that is not such a field being rejected.", "quantifier": "all byte strings, all buffer addresses, all checksum values", "why_tests_cant": "the unit tests compare a few strings; alignment, tail length and data vary without bound", "anchors": ["common/bpcodec/src/codec/Bpv7Crc.cpp", "Crc32C_Unaligned_Hardware", "Crc16_X25_Unaligned", "SerializeCrc32ForBpv7", "DeserializeCrc32ForBpv7"]}
{"id": "C45", "title": "BPv7 primary blocks and endpoint ids cross the wire exactly", "statement": "The BPv7 primary block reader accepts exactly the blocks of the wire format of RFC 9171 (the CRC verified unless switched off), delivers their fields and length, never reads outside the buffer and leaves it unchanged; the writer writes each block in shortest form with its correct CRC, in exactly the announced number of bytes; what is written is read back, all services of node 0 becoming dtn:none; damage within two (CRC-16) or four (CRC-32C) consecutive bytes is never accepted; the expiration time is creation time plus lifetime, and the seconds scale of bpv6-style expirations keeps their order.", "quantifier": "all byte strings, all block contents, all buffers, software and hardware CRC", "why_tests_cant": "the unit tests encode a handful of blocks; contents, encodings, truncations and damage are unbounded", "anchors": ["common/bpcodec/src/codec/Bpv7CbhePrimaryBlock.cpp", "Bpv7CbhePrimaryBlock::SerializeBpv7", "Bpv7CbhePrimaryBlock::DeserializeBpv7", "common/bpcodec/src/codec/Cbhe.cpp", "cbhe_eid_t::DeserializeBpv7"]}
{"id": "C46", "title": "BPv7 canonical and extension blocks cross the wire exactly", "statement": "The BPv7 canonical block reader accepts exactly the blocks of its wire format with a correct CRC and delivers header, data and length; the writer writes shortest forms, correct CRC and the announced size; previous node, bundle age, hop count and priority blocks are written with their type and read back with their content, their readers accepting exactly the data of their type; hop counts are updated in place exactly when the length stays, and recomputing the CRC makes a modified block valid again without touching other bytes; the part authenticated by BPSec is type, number and flags in shortest form.", "quantifier": "all byte strings, all block contents, all buffers and positions, software and hardware CRC", "why_tests_cant": "contents, encodings, truncations and damage are unbounded", "anchors": ["common/bpcodec/src/codec/Bpv7CanonicalBlock.cpp", "Bpv7CanonicalBlock::SerializeBpv7", "Bpv7CanonicalBlock::DeserializeBpv7", "Bpv7CanonicalBlock::RecomputeCrcAfterDataModification", "common/bpcodec/src/codec/Bpv7ExtensionBlocks.cpp", "Bpv7HopCountCanonicalBlock::TryReserializeExtensionBlockDataWithoutResizeBpv7"]}
{"id": "C47", "title": "BPv7 administrative records cross the wire exactly", "statement": "The administrative record reader accepts exactly the bundle status reports and bundle-in-bundle PDUs of its wire format, taking all of the block's data, and delivers indicators, times, reason, source, timestamp, fragment fields and the encapsulated bundle; records are written in shortest form with the announced size and a correct CRC, and what is written is read back whenever a status is asserted; comparing two reports compares everything but the times of the status items.", "quantifier": "all byte strings, all record contents, all buffers and positions, software and hardware CRC", "why_tests_cant": "the combinations of definite and indefinite arrays, optional times and fragment fields, and the contents are unbounded", "anchors": ["common/bpcodec/src/codec/Bpv7AdministrativeRecords.cpp", "Bpv7AdministrativeRecord::SerializeBpv7", "Bpv7AdministrativeRecord::Virtual_DeserializeExtensionBlockDataBpv7", "Bpv7AdministrativeRecordContentBundleStatusReport::DeserializeBpv7", "Bpv7AdministrativeRecordContentBibePduMessage::DeserializeBpv7"]}
{"id": "C48", "title": "BPSec security blocks cross the wire exactly", "statement": "The reader of integrity and confidentiality blocks delivers a block exactly when all of the block's data is an abstract security block (targets, context, flags, source, optional parameters, results) of the known contexts, and delivers the members the bytes mean; blocks are written in shortest form with the announced sizes and a correct CRC, and what is written is read back; setting a parameter changes that parameter only and fails only on a value of the other kind, the scope is 7 by default, results are those appended, and blocks compare equal exactly when their members agree. The reader does not read outside the received buffer (refuted).", "quantifier": "all byte strings and memory behind them, all member contents, all buffers and positions, all parameter lists", "why_tests_cant": "nested definite and indefinite arrays, two contexts with their ids and kinds of value, and lists of any length up to 1000 cannot be enumerated", "anchors": ["common/bpcodec/src/codec/Bpv7BpSecExtensionBlocks.cpp", "Bpv7AbstractSecurityBlock::Virtual_DeserializeExtensionBlockDataBpv7", "Bpv7AbstractSecurityBlock::SerializeBpv7", "Bpv7AbstractSecurityBlock::DeserializeIdValuePairsVecBpv7", "Bpv7AbstractSecurityBlockValueByteString::DeserializeBpv7"]}
{"id": "C49", "title": "BPv7 bundle views load, edit and render exactly", "statement": "Loading accepts exactly the bundles with a valid primary block that is no fragment, well-formed blocks and one payload block, number 1, at the end, and yields the view that says what the bytes say, leaving encrypted blocks unread; rendering a view sends its primary block and its blocks in order without the deleted ones, unchanged ones byte for byte and changed ones in shortest form with a correct CRC, with the announced size; rendering in place does the same ending at the same place without touching memory before the new start, or changes nothing if the padding does not suffice; a rendered bundle is loaded by the receiver with the same content; an unchanged bundle is reproduced; edits change exactly what they name and keep the view sendable; the next free block number is the least unused one. Rendered bundles always load, block numbers are unique, offered numbers are unused, RenderInPlace is memory safe: each refuted.", "quantifier": "all byte strings, all views, all sequences of edits, all buffers, paddings and leftover object contents", "why_tests_cant": "bundles have any number of blocks of any type and size with any combination of edits; the failures need duplicate numbers, 63 blocks or a changed payload", "anchors": ["common/bpcodec/src/codec/BundleViewV7.cpp", "BundleViewV7::Load", "BundleViewV7::Render", "BundleViewV7::RenderInPlace", "BundleViewV7::GetSerializationSize", "BundleViewV7::GetNextFreeCanonicalBlockNumber", "BundleViewV7::InsertMoveCanonicalBlockAfterBlockNumber"]}
{"id": "C50", "title": "A node forwards what it should, changed only where it must be", "statement": "A bundle larger than the limit or of another version than 6 and 7 is refused; so is a malformed one, a BPv7 bundle with two previous node or two hop count blocks, and one whose hop count would exceed its limit or 255. Ping answers for the node end there; administrative records for its custody service and bundles from storage pass unchanged; a bundle for the echo service goes back to its source from the echo service; every other BPv6 bundle passes unchanged, every other BPv7 bundle leaves with the previous node set (in a new block with the least free number if there was none), the hop count one higher, and everything else byte for byte; 256 bytes of padding always suffice. The next node loads the bundle and sees just that; over any journey through nodes and their storage the hop count grows by the number of nodes and never beyond the limit. Refuted: the hop limit is always enforced (2^64-1 wraps), the outcome does not depend on old memory (encrypted hop count), the previous node is readable (dangling BCB target), echoing ends, BPv6 echoes are well-formed, forwarded bundles respect the size limit.", "quantifier": "all byte strings, node configurations, memory contents, journeys of any length", "why_tests_cant": "bundles and journeys are unbounded; the failures need wrapped counts, dangling targets or uninitialised members", "anchors": ["module/ingress/src/receive.cpp", "Ingress::Impl::ProcessPaddedData"]}
{"id": "C51", "title": "Ingress sends every bundle to exactly one place, within its limits", "statement": "For any number of threads handling bundles, interleaved in any way with acknowledgements, link events and telemetry: each bundle is sent once to egress, or once to storage, or once on an opportunistic link, or is lost, never two of these, after at most 7 steps of its thread, and that is final; bundles that request custody, administrative records for storage and bundles to be fragmented are only ever given to storage to be stored (unless they come from there), and nothing goes to egress directly when priorities are enforced; messages carry the destination and flags of their bundle and an id no other message has; the byte counters of the pipelines are exact whatever acknowledgements arrive; with honest acknowledgements a pipeline holds just what is under way, nothing leaks, limits hold and memory is bounded by the sum of the configured limits; a thread waits exactly while there is room in neither half and egress has precedence; a bundle is lost only if a send fails, telemetry waits 4 s, or the storage pipeline is full; once initialised, one bundle up to the maximum size always fits; routes are what the last telemetry says; no pipeline index is ever out of bounds. Refuted: pipelines are within the limits in force after telemetry lowers them, indices in acknowledgements are in bounds, bundles from the router can wait for room (the thread waits for itself), a bad first telemetry can be corrected, an accepted bundle can be stored, reserving twice can be undone.", "quantifier": "all interleavings, numbers of threads, bundles, acknowledgements, telemetry, configurations", "why_tests_cant": "interleavings are unbounded; leaks and losses need rare timeouts, send failures or unusual acknowledgements", "anchors": ["module/ingress/src/receive.cpp", "Ingress::Impl::ProcessPaddedData", "BundlePipelineAckingSet::WaitForPipelineAvailabilityAndReserve", "BundlePipelineAckingSet::CompareAndPop_ThreadSafe", "Ingress::Impl::ReadZmqAcksThreadFunc", "Ingress::Impl::RouterEventHandler"]}
{"id": "C52", "title": "Storage keeps every bundle in exactly one place, answers for every bundle and serves links fairly", "statement": "For every sequence of messages from ingress, egress and the router, timer expirations, disk failures and failed sends: every link's byte counter tells what its pipeline holds, no bundle is in a pipeline twice, links that are down have no queue, and the links served are those that are up; if egress always tells the same limits no link ever holds more than half of them; each message to egress is the front of its link's queue or a bundle on disk, for a link that is up, within its room, to its next hop; rounds of sending go round robin, and every up link is served within as many rounds as there are links; with enforced priorities a link sends nothing less urgent than what waits for it; acks sent, acks lost and acks owed are together exactly the bundles received; a bundle that may be cut through is queued if its link is up, any other ordinary bundle goes to disk under a fresh id and is acknowledged; a bundle egress could not send for ingress or for storage, and what waits in memory for a link that goes down, goes to disk and in line, a stored one to the front, and a link reported down is down; a bundle leaves the disk only when egress confirms it without custody, a custody signal names it or it expires while waiting. If in addition egress answers for what it was given, custody signals name ids in use, links are removed only when empty, reads succeed and ids at egress are not reissued: no step is undefined, every stored bundle is in exactly one of: waiting, at egress for one link, under a custody timer; an expired timer puts its bundle in line; storage sleeps only if nothing on disk waits for an up link. Refuted without these conditions: limits after egress lowers them, an early link-down is kept, an ack means stored, ids in use belong to bundles, refused custody leaves nothing behind, failed reads are retried, removed links return their bundles, late answers are harmless, custody signals always terminate, outduct indices are checked, sleep only with empty queues, the destination mask survives a link going down, failed sends are retried, answers before telemetry are heeded, an opportunistic link comes back.", "quantifier": "all sequences of events, bundles, telemetry, configurations, failures of disk and sockets, custody ids issued, choices of the catalog", "why_tests_cant": "sequences and failures are unbounded; losses need rare combinations of link events, failures and early or late answers", "anchors": ["module/storage/src/ZmqStorageInterface.cpp", "ZmqStorageInterface::Impl::ThreadFunc", "ZmqStorageInterface::Impl::DoSendBundles", "ZmqStorageInterface::Impl::PrioritySend", "ZmqStorageInterface::Impl::Write", "ZmqStorageInterface::Impl::ProcessBundleCustody", "ZmqStorageInterface::Impl::SetLinkDown"]}
{"id": "C53", "title": "A TCP outduct reports each bundle it was given at most once, in order, and as sent only when all of it was acknowledged", "statement": "For every interleaving of calls of Forward, writes that succeed or fail, messages from the peer and reconnections: a bundle goes out as whole nonempty segments of at most the agreed size, end to end, the first and the last one flagged; TCPCL version 3 never indexes outside its vectors, and the bundles it reports as sent are the first ones accepted, each once and in order; those TCPCL version 4 reports as sent are among those accepted, each once and in order, and each such report answers an acknowledgment with the end flag, the bundle's own transfer id and its full size. On one connection with a peer that acknowledges what it gets: the peer gets the accepted bundles in order; the bundles reported as sent are exactly those acknowledged completely; those reported as failed or still held are exactly those not completely written; with version 4, within the pipeline and the transfer limit, none is dropped. With STCP on one connection the bundles reported as sent are exactly those written, the others are reported as failed with their own user data or still held. Refuted: failures reported by TCPCL name their bundle, after a reconnection version 3 reports what was acknowledged, reports resume after a bundle was lost with its connection (version 3, STCP), version 4 reports every bundle, a session announcement cannot crash the node, the buffer of acknowledgments is bounded, the transfer limit is kept, no bundle disappears in Forward, STCP never uses a null sender, STCP reports all that was written.", "quantifier": "all sequences of events, all bundles and sizes, all peers, all configurations", "why_tests_cant": "interleavings of two threads with failures and reconnections are unbounded; wrong reports need particular sizes and moments", "anchors": ["common/util/src/TcpAsyncSender.cpp", "common/tcpcl/src/TcpclV3BidirectionalLink.cpp", "common/tcpcl/src/TcpclV4BidirectionalLink.cpp", "common/stcp/src/StcpBundleSource.cpp", "TcpAsyncSender::HandleTcpSend", "TcpclV3BidirectionalLink::BaseClass_Forward", "TcpclV3BidirectionalLink::BaseClass_AckCallback", "TcpclV4BidirectionalLink::BaseClass_Forward", "TcpclV4BidirectionalLink::BaseClass_AckCallback", "StcpBundleSource::Forward", "StcpBundleSource::HandleTcpSend"]}
{"id": "C54", "title": "Egress answers for every bundle once, keeps track of every bundle, and tells the other modules what is so about links and routes", "statement": "For every sequence of messages, callbacks and failing sends, with outducts that report each bundle they took at most once with the user data it came with: every bundle message is answered once, to the module it came from, with its own ids, unless the send of that answer fails or the bundle is still in an outduct; every bundle is in exactly one place: sent, in an outduct, handed to ingress, given back to storage, on storage's disk, or gone, and none is gone and no answer lost if every send succeeds and no bundle fails after having been reported as sent; an answer without error is given only for a bundle reported as sent or for an opportunistic link, one with an error only for a bundle that failed, was not taken or has no outduct, and the bundle comes back with it exactly if storage does not have it; a bundle is offered once, to the outduct its destination is routed to by the last effective route update; no undefined behaviour is reached. For all executions: the router is told about a link exactly when its status changes, in order, and what it hears last is what was observed last; ingress, storage and router get the same telemetry, and the last one says how destinations are routed; schedule and rate of an outduct are the last ones set; egress starts exactly if next hops differ, layers are known and pipelines hold twice the largest bundle modulo 2^64. If the modules route as egress does, a failure blames the outduct that failed. Refuted: a failed bundle handed to storage names its outduct, an unroutable one blames none, a bundle survives a failure after an early report, failures without user data are handled, an answer names the outduct that failed, answers are repeated until sent, opportunistic bundles are handed over before they are answered for, a bundle not taken is always answered, down means disconnected, the last route update wins, pipelines hold the largest bundle, the router knows the link when two threads report it at once.", "quantifier": "all configurations, all sequences of messages and callbacks, all failures of sends, all outducts that report what they took", "why_tests_cant": "needs failing sends, reroutes between release and forwarding, and callbacks of several outduct threads in every order", "anchors": ["module/egress/src/EgressAsync.cpp", "common/outduct_manager/src/OutductManager.cpp", "Egress::Impl::ReadZmqThreadFunc", "Egress::Impl::OnFailedBundleZmqSendCallback", "Egress::Impl::OnSuccessfulBundleSendCallback", "Egress::Impl::OnOutductLinkStatusChangedCallback", "Egress::Impl::ResendOutductCapabilities", "OutductManager::Reroute_ThreadSafe", "OutductManager::GetAllOutductCapabilitiesTelemetry_ThreadSafe", "OutductManager::LoadOutductsFromConfig"]}
{"id": "C55", "title": "Storage and egress keep each other's contracts: together they neither strand a stored bundle nor delete one that was not sent", "statement": "For storage and egress joined by their two sockets, over all interleavings of what else happens to each, of reading and of failing sends, where outducts report each bundle they took at most once with its data, reads from disk succeed, no id is issued that egress still has, custody signals are about bundles with custody and in use, opportunistic links go away only without bundles, and there is at least one outduct: what storage needs of egress holds and what egress needs of its input holds, so neither reaches undefined behaviour; the stored bundles storage takes to be with egress are exactly those on their way to egress, in an outduct that has not reported, or with an answer on its way back, each once, and those whose answer could not be sent; if no send fails, then once nothing is on its way every stored bundle waits to be sent or for its custody timer; an answer puts its bundle, if it is still stored, among those that wait or are timed, an answer with an error among those that wait; if no write fails, a bundle that egress gives back, sent past storage by ingress or passed on from memory, is stored and waits; a stored bundle disappears only if it expired while waiting, a custody signal named it, or it needed no custody and an outduct reported it as sent or egress passed it to ingress; when storage has read all of egress's messages a stored bundle fits a link exactly if egress routes its destination through that outduct. Refuted: a deleted bundle was sent; lost answers are repaired; the link that failed is the one taken down, for a stored bundle when a route changes meanwhile and for a bundle from ingress.", "quantifier": "all configurations with an outduct, all interleavings of the two modules and their environment, all failures of sends and writes", "why_tests_cant": "needs every interleaving of two modules with route changes, link failures and lost messages in between", "anchors": ["module/storage/src/ZmqStorageInterface.cpp", "module/egress/src/EgressAsync.cpp", "ZmqStorageInterface::Impl::ThreadFunc", "ZmqStorageInterface::Impl::ReleaseOne_NoBlock", "Egress::Impl::ReadZmqThreadFunc", "Egress::Impl::OnFailedBundleZmqSendCallback", "Egress::Impl::OnSuccessfulBundleSendCallback", "Egress::Impl::ResendOutductCapabilities"]}
{"id": "C56", "title": "Custody of BPv6 bundles is handed over, signalled and confirmed exactly", "statement": "The custody information of a bundle is read exactly and only refused when there is none: the id counts only if the one enhancement block names the custodian of the primary block. A received bundle whose custody is accepted is sent on with this node as custodian and, for a node aware of enhancement blocks, with one of them, with this node's endpoint and the new id; all else is unchanged; a bundle that is not accepted is sent on unchanged but for an enhancement block that does not match, which is removed. Every decision succeeds and is signalled to the previous custodian: on its own at once, saying what was decided, when and about which bundle or fragment, or kept for an aggregate signal. Flushing sends, for each custodian and each status with ids decided on since the last flush, exactly one aggregate signal with exactly these ids, and nothing else; it succeeds up to 104 fills in a signal, and a decision adds at most one. A deletion is reported to the report-to endpoint as such. So an id under which one node accepted a bundle comes back to it in the next flush of the next node, with that node's decision. Refuted: records of a node have different names; flushing stays within its buffer whatever the configured number of fills.", "quantifier": "all bundles with block flags in one byte, all ids below 2^64-1, all sequences of decisions and flushes, all clocks and memory contents", "why_tests_cant": "needs every sequence of accepted and refused ids, every custodian and every number length to see that no id is lost, added or sent to the wrong node", "anchors": ["common/bpcodec/src/codec/CustodyTransferManager.cpp", "common/bpcodec/include/codec/CustodyTransferManager.h", "CustodyTransferManager::GetCustodyInfo", "CustodyTransferManager::UpdateBundleCustodyFields", "CustodyTransferManager::GenerateCustodySignal", "CustodyTransferManager::GenerateAllAcsBundlesAndClear", "CustodyTransferManager::GenerateBundleDeletionStatusReport"]}
{"id": "C57", "title": "Initialization vectors of BPSec encryption are exact and unique within a process", "statement": "The time part a thread gets is the first of its clock readings that is at least 100 ms after all those handed out before, however often the clock is set back; a thread waits only while there is no such reading. Every bundle is secured with one vector of the size of its policy, which is the next one of its thread (eight bytes of time and a 32- or 64-bit counter that carries into the time), whatever other threads do, and exactly its targets are encrypted, with the policy's key and that vector. Within the limits that the header states (100000*2^32 or 100000*2^64 bundles per thread) no vector is used for two bundles of a process; so no key is used twice with a vector if each bundle has at most one target. The limit is exact. Refuted: no key is used twice with a vector (the targets of a bundle share both); vectors are unique across restarts (the clock may have been set back).", "quantifier": "all sequences and interleavings of threads starting and bundles being secured, all clock readings, all keys and targets", "why_tests_cant": "a repeated vector needs a race, a clock set back or more than 2^32 bundles, none of which a test runs into", "anchors": ["common/bpsec/src/InitializationVectors.cpp", "common/bpsec/include/InitializationVectors.h", "InitializationVectorsForOneThread::Create", "InitializationVectorsForOneThread::SerializeAndIncrement", "BpSecPolicyManager::ProcessOutgoingBundle", "BpSecBundleProcessor::TryEncryptBundle"]}
{"id": "C58", "title": "BPSec policies are loaded and found exactly as the rules say, field by field", "statement": "A configuration of policy rules is loaded exactly if the rules are valid, every endpoint text can be read (ipn:*.*, ipn:n.*, ipn:n.s) and no two entries are about the same bundles, role and service. The policy found for a bundle and a role is the one of the chosen patterns: the most specific pattern that fits the security source among those in the rules, then the most specific that fits the bundle source among the rules with that, then for the destination; it has exactly the settings of the rules with these patterns for the role; nothing is found exactly if there is no choice or no rule with the chosen patterns is for the role. So every setting found comes from a rule that the bundle fits, and a rule for exactly its endpoints is always followed. Lookups through the cache give the same, for every sequence of lookups, and hits are exactly repetitions of the last lookup that found something. Refuted: a rule that fits a bundle is followed if all rules are for the same role and service (a more specific one hides it); rules for one role do not affect another; loaded policies of security sources satisfy the check for encrypted integrity blocks (it is made on an object whose services are switched off, so it never fails and its two result fields are always false).", "quantifier": "all configurations, all endpoints and roles, all sequences of lookups", "why_tests_cant": "which rule hides which depends on all rules together; tests have a handful of rules", "anchors": ["common/bpsec/src/BpSecPolicyManager.cpp", "common/bpsec/include/BpSecPolicyManager.h", "BpSecPolicyManager::LoadFromConfig", "BpSecPolicyManager::CreateOrGetNewPolicy", "BpSecPolicyManager::FindPolicy", "BpSecPolicyManager::FindPolicyWithCacheSupport", "BpSecPolicy::ValidateAndFinalize"]}
{"id": "C59", "title": "Security blocks of received bundles are checked, and errors acted on, exactly as the policy says", "statement": "Given what the cryptography says about each target, processing a received bundle never accesses anything out of bounds and never changes the number, order, types or numbers of its blocks; no block becomes encrypted. For each confidentiality and each integrity block, what happens is exactly determined by the acceptor policy, or else by being the destination, or else by the verifier policy: left alone; treated as having no policy (dropped, targets marked, or left, by the action mask); or checked. A check reports exactly the errors of the targets (no such block, a type the policy does not name, an encrypted target of an integrity block, wrong HMAC or ciphertext) or one error for all; decrypts exactly the readable targets for acceptors only; on success an acceptor marks the block for deletion. Errors drop the bundle exactly when the policy's events (or, for the encrypted payload, the RFC) demand it, and otherwise remove exactly the demanded operations and target blocks. So if a bundle is kept, a payload that an acceptor is to decrypt has been authenticated and decrypted; an encrypted payload without acceptor policy is never kept at its destination; a payload whose HMAC is wrong is dropped unless the policy explicitly tolerates it; nodes without duties change nothing. Refuted: a bundle stripped of its security blocks is dropped if policy demands them; an encrypted payload is never delivered; a block that has been decrypted is no target of a remaining confidentiality block; integrity operations on a block that is discarded are removed; a block marked for deletion stays marked.", "quantifier": "all configurations, all bundles (any blocks, security blocks and targets), all answers of the cryptography, all nodes", "why_tests_cant": "the combinations of roles, errors on several targets of several security blocks, and event masks are unbounded; tests check one block with one error", "anchors": ["common/bpsec/src/BpSecPolicyManager.cpp", "common/bpsec/src/BpSecBundleProcessor.cpp", "BpSecPolicyManager::ProcessReceivedBundle", "DoFailureEvent", "DoFailureEventSopMissingAtAcceptor", "BpSecBundleProcessor::TryDecryptBundleByIndividualBcb", "BpSecBundleProcessor::TryVerifyBundleIntegrityByIndividualBib"]}
{"id": "C60", "title": "A security source protects exactly the blocks that its policy names, and an acceptor with the same settings recovers the bundle", "statement": "For a bundle as it was loaded, what a security source sends is determined exactly: without a policy the bundle is unchanged; with integrity there is one new integrity block in front, with a number no other block has, whose targets are exactly the blocks of the named types and whose HMACs are over their bytes; with confidentiality there is one more block in front whose targets are exactly the blocks of the named types (for integrity, the new block), and exactly these are encrypted; all else is as before. There is no undefined behaviour if all blocks have been rendered. A bundle that ends with its payload is sent whenever keys and room are all right, some block of a named type exists, and none to be signed is encrypted. A bundle without security blocks that is sent, to an acceptor with the same settings, is accepted and all of its blocks are as they were, security blocks marked for deletion. A policy that only encrypts and names integrity blocks can never be obeyed: nothing is sent. Refuted: the primary block is signed if named; a bundle lacking a named type is not sent; signatures are over what is sent; blocks just inserted are signed without undefined behaviour; all targets of a new security block are sent; no block is encrypted twice; all blocks of the types named for confidentiality are encrypted.", "quantifier": "all configurations, all bundles (any blocks), all outcomes of keys and rendering, and for the round trip all acceptors with the same settings", "why_tests_cant": "tests protect one or two blocks of fixed bundles; the numbers, types and combinations of blocks and targets are unbounded, and the round trip quantifies over two independent configurations", "anchors": ["common/bpsec/src/BpSecPolicyManager.cpp", "common/bpsec/src/BpSecBundleProcessor.cpp", "BpSecPolicyManager::PopulateTargetArraysForSecuritySource", "BpSecPolicyManager::ProcessOutgoingBundle", "BpSecPolicyManager::FindPolicyAndProcessOutgoingBundle", "BpSecBundleProcessor::TryEncryptBundle", "BpSecBundleProcessor::TryAddBundleIntegrity", "BundleViewV7::Render"]}
{"id": "C61", "title": "Encapsulation packets cross a local stream exactly, and reading them is memory safe for well-formed lengths", "statement": "The header made for a payload of 1 to 2^32-9 bytes has the type, the smallest length field that fits the packet (header included), big-endian, and 0 elsewhere; every other size is refused; idle packets are the one byte 0xE0. Decoding the first byte and the others is exact for all byte values. However the bytes of any number of packets arrive, exactly the complete ones have been delivered, in order and unchanged, with or without their headers as configured; reading is never stuck, and every byte is written within the receive vector. For arbitrary bytes every byte is written within the vector unless headers are kept and a header claims a length less than its own. Refuted: idle packets are skipped; an invalid header closes the stream; no byte is written outside of the vector; the configured maximum packet size bounds what is allocated.", "quantifier": "all payload sizes and types, all lists of packets, all prefixes of their bytes, all byte streams, both header modes", "why_tests_cant": "tests encode and decode single headers of chosen sizes; sizes, packet sequences and arbitrary byte streams are unbounded", "anchors": ["common/util/include/CcsdsEncap.h", "common/util/include/CcsdsEncapEncode.h", "common/util/include/CcsdsEncapDecode.h", "common/util/include/EncapAsyncDuplexLocalStream.h", "GetCcsdsEncapHeader", "DecodeCcsdsEncapHeaderSizeFromFirstByte", "DecodeCcsdsEncapPayloadSizeFromSecondToRemainingBytes", "EncapAsyncDuplexLocalStream::StartReadFirstEncapHeaderByte_NotThreadSafe"]}
{"id": "C62", "title": "Bundles sent over STCP are delivered in order, whole and once, whatever the interleaving of the sink's threads", "statement": "What the source sends for a bundle of 1 to 2^32-1 bytes or a keep-alive is its size in four bytes, big-endian, and its contents; a byte stream stands for one sequence of data units only. For every byte stream and every interleaving of arrivals, completion handlers, posted calls, the reader thread and spurious wakeups, what the callback was given are exactly the bundles of the first data units that arrived. If the circular buffer has room for at least one bundle, then whenever nothing more can happen everything that arrived before an incomplete or too large data unit has been delivered: no wakeup is lost and reading is always started again. Between arrivals only a bounded number of steps is possible. The buffer never holds more bundles than it has room for, the bundle being read has a free place and at most the maximum size, and the reader never takes from an empty buffer. Refuted: every configurable buffer size works (with 1 nothing is ever read); every bundle that Forward accepts is received as it was (one of 2^32 bytes is received as the data units in its contents).", "quantifier": "all byte streams, all interleavings, all capacities of at least one, all maximum sizes, all lists of data units", "why_tests_cant": "a lost wakeup or a read that is not restarted shows in rare interleavings of two threads; streams and interleavings are unbounded", "anchors": ["common/stcp/src/StcpBundleSink.cpp", "common/stcp/src/StcpBundleSource.cpp", "StcpBundleSink::TryStartTcpReceive", "StcpBundleSink::HandleTcpReceiveIncomingBundleSize", "StcpBundleSink::HandleTcpReceiveBundleData", "StcpBundleSink::PopCbThreadFunc", "StcpBundleSource::GenerateDataUnitHeaderOnly"]}
{"id": "C63", "title": "Datagrams received by the UDP sink are delivered in order and once, or counted as dropped when the buffer was full", "statement": "For all sequences of datagrams, all interleavings of the receiving thread, the reader thread and spurious wakeups, and whatever callbacks leave in the vectors they are given: what the callback was given are datagrams that came, in order, each once, cut to the configured size; all others are counted as overruns or still wait, and nothing is lost otherwise. A datagram is dropped only if all places of the circular buffer but one are taken. Whenever nothing more can happen nothing waits, and the next datagram can be received; between datagrams only a bounded number of steps is possible. Every buffer that is received into has the configured size, there is always a vector to swap with, and the reader never takes from an empty buffer. Refuted: every configurable buffer size works (with 1 every datagram is dropped); datagrams are delivered whole (longer ones are delivered without their end).", "quantifier": "all sequences of datagrams, all interleavings, all buffer sizes and datagram sizes, all behaviours of the callback on the vector", "why_tests_cant": "lost wakeups and exchanged vectors show in rare interleavings of two threads; sequences and interleavings are unbounded", "anchors": ["common/udp/src/UdpBundleSink.cpp", "UdpBundleSink::HandleUdpReceive", "UdpBundleSink::PopCbThreadFunc", "UdpBundleSink::StartUdpReceive"]}
{"id": "C64", "title": "RTP packets streamed in bundles come out as they went in", "statement": "For every sequence of packets and every number of packets per bundle of at least 1, the stream sender puts the packets that it uses (at least 12 bytes, highest bit set) in their order into bundles of exactly that many, each packet with its size in front in 8 bytes, never writing beyond a bundle's end, and holds back at least one and at most that many of the newest. The stream receiver gets from a payload exactly the packets of which it is made; for every other payload it reads beyond the payload's end. Both together give back the packets that were not held. Refuted: payloads are read within their bounds; every packet that is used is sent; only packets of RTP version 2 are used; every configurable number of packets per bundle works.", "quantifier": "all sequences of packets, all numbers of packets per bundle, all payloads", "why_tests_cant": "sequences of packets and payloads of arbitrary bytes are unbounded", "anchors": ["common/bpcodec/apps/BpSendStream/src/BpSendStream.cpp", "common/bpcodec/apps/BpReceiveStream/src/BpReceiveStream.cpp", "common/streaming/src/DtnRtp.cpp", "BpSendStream::PushFrame", "BpSendStream::PushBundle", "BpReceiveStream::ProcessIncomingBundlesThread", "DtnRtp::PacketHandler"]}
{"id": "C65", "title": "The UDP source sends in order and reports what it sent", "statement": "For every interleaving of calls of Forward, posted handlers, token timer and completions of sends: if no send fails and there is no rate limit, or all bundles are given in the same kind of message, the datagrams are sent in the order of Forward, each is reported as sent with its own user data, the link stays up, and when nothing is under way any more all accepted bundles were sent and reported. In every execution, reports come in the order of Forward without gaps and are no more than the datagrams sent, fewer than maxUnacked + 10 accepted bundles are without a report, each accepted bundle is sent at most once, bundles of the same kind of message are sent in the order of Forward, the timer runs while a bundle waits for tokens, Forward accepts exactly when the link is up and there is room, and a closed socket stays closed. Refuted: the link stays up while no send fails; what is reported was sent; a bundle of which the send failed is not reported as sent; every accepted bundle is reported as sent or failed.", "quantifier": "all sequences of bundles, all token decisions, all interleavings of threads, timers and completions, all ring sizes", "why_tests_cant": "interleavings of two threads, a timer and completions are unbounded, and the faults need a rate limit with two kinds of messages or an error of the network interface at a certain moment", "anchors": ["common/udp/src/UdpBundleSource.cpp", "UdpBundleSource::Forward", "UdpBundleSource::HandlePostForUdpSendVecMessage", "UdpBundleSource::HandlePostForUdpSendZmqMessage", "UdpBundleSource::ProcessPacketSent", "UdpBundleSource::DoHandleSocketShutdown", "UdpBundleSource::OnTokenRefresh_TimerExpired"]}
