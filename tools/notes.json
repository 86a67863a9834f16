{
 "C01": [
  "proved",
  "All insertion histories with end < 2^64-1; the boundary end = 2^64-1 is refuted with a witness."
 ],
 "C02": [
  "proved",
  "All canonical sets and all keys."
 ],
 "C03": [
  "partial",
  "The unconditional claim is false of the code (early stop): refuted with a witness; proved under the exact condition that no stored fragment ends right before the removed range, for single indices, and canonical form for every history."
 ],
 "C04": [
  "proved",
  "All bounds, all canonical sets."
 ],
 "C05": [
  "proved",
  "All received sets and scopes incl. auto-detected bounds."
 ],
 "C06": [
  "proved",
  "All well formed reports with at least one claim; a claimless report is undefined behaviour (refuted)."
 ],
 "C07": [
  "partial",
  "Reduction and acknowledgement proved in full. The needing-resent routine (not used by the sender) is proved for claims with gaps and refuted for touching claims."
 ],
 "C08": [
  "proved",
  "All capacities <= 2^32-4, 32/64-bit ids, all histories; includes absence of out-of-range row access and of find_lsb(0)."
 ],
 "C09": [
  "proved",
  "All reachable states and all n."
 ],
 "C10": [
  "proved",
  "All reachable states, all ids (in and out of range), lists of ids."
 ],
 "C11": [
  "proved",
  "All 64/32-bit values, all buffers, all byte strings, through the dispatching entry points of the AVX2/BMI2 build; intrinsics semantics are trusted (M_Intrin.v)."
 ],
 "C12": [
  "partial",
  "Single-value decoders: all inputs. Array decode: the fast path equals the specification and the classic path on every input except exactly when an SDNV it reaches starts with 32 continuation bytes; there it is undefined (proved as an iff) and the unconditional claim is refuted with a witness."
 ],
 "C13": [
  "proved",
  "All 2^64 values, all buffers, all byte strings, fast and classic. The bit scan of zero the code evaluates for the value 0 is taken to yield an arbitrary byte; under the strict reading (undefined) it is refuted with a witness."
 ],
 "C35": [
  "partial",
  "Deserialisers characterised exactly, serialisers proved for all element lists; refuted: short indefinite-length arrays are rejected, and the checked array serialiser writes one byte past an empty buffer."
 ],
 "C14": [
  "proved",
  "Release/acquire model: every interleaving and every value a load may return; no race, FIFO, capacity size-1, full/empty exact, counts bounded; NumInBuffer from a third thread refuted."
 ],
 "C18": [
  "proved",
  "All histories that free only ids in use, any restored ids below 2^63, fewer than 2^53 calls; used sets exact (no leak); consecutive ids per source; freeing an id twice after its block is recycled is refuted."
 ],
 "C31": [
  "proved",
  "All histories, exact units; agreement of CanTakeTokens/TakeTokens; refill; no overflow under stated sizes; overflow after long idle time refuted."
 ],
 "C29": [
  "proved",
  "Encode/decode round trip for every id set below 2^64-1 and every large enough buffer; decoding of arbitrary bytes characterised exactly. Refuted: fills of length 0 or wrapping past 2^64-1 are accepted; a too small buffer yields bytes acknowledging other ids."
 ],
 "C32": [
  "proved",
  "Tiling, refusals, round trip in any order, nested fragmentation, and the fragment manager under any interleaving of well-formed fragments. Block parsing/rendering is not modelled. Refuted: Assemble accepts incomplete contiguous runs; the manager completes early on inconsistent totals or an empty fragment; offset+length wrap writes out of bounds."
 ],
 "C22": [
  "proved",
  "First pass of LtpSessionSender in memory mode, interleaved with arbitrary other events. Serial numbers distinct until the 64-bit counter runs over. Refuted: a report whose bounds exceed the block makes the sender read outside the block."
 ],
 "C23": [
  "proved",
  "LtpSessionReceiver in memory mode; segments of one block, checkpoint serial numbers naming one range each, red part within the configured limit. Refuted without these: wrapping offset writes out of bounds, reused serial number blocks delivery."
 ],
 "C24": [
  "proved",
  "Sender and receiver session joined by a network that may drop, duplicate, delay and reorder; 64-bit checkpoint counter does not run over; session deletion, cancel segments and the byte encoding of segments are not part of this model. The converse is refuted: delivered data whose sender can never complete."
 ],
 "C15": [
  "proved",
  "The 65536-bucket table of sorted lists (HashMap16BitFixedSize) answers insert, take, find and in-place update exactly as a finite map, for any hash function with 16-bit results, for the four key types used; operator< of those key types is proved a strict total order."
 ],
 "C30": [
  "proved",
  "ForwardListQueue behaves as a list under push, pop, remove and iteration; a refutation theorem records that insertion behind the last element through emplace_after leaves the stored end iterator stale."
 ],
 "C16": [
  "proved",
  "All histories of store, pop, return, remove, lookup and expiry calls from an empty catalog follow two plain lists (stored, waiting). Caller obligations are explicit: priorities 0-2, expirations below 2^60, fresh custody ids, FIFO or FILO order. Refutations show priority 3 and expirations of 2^60 or more are mishandled. Ordering by sequence is a separate theorem."
 ],
 "C17": [
  "proved",
  "Every state of every history: queued exactly once iff waiting, ids not stored resolve to nothing. Refutations: a bundle refused by sequence ordering leaves its uuid behind; removing a waiting bundle as sent leaves its id queued."
 ],
 "C19": [
  "proved",
  "All histories of start, cancel, both polls and both counts follow the list of running timers. Hypotheses: clock not set back between starts, cancel with the destination used at start; refutations show both are needed and that start order holds per destination only."
 ],
 "C25": [
  "proved",
  "For every size n with 1 <= n < 2^64 and every sequence of AddSession calls: each call is defined, refuses exactly the n latest accepted numbers, and ContainsSession agrees. Size 0 is undefined behaviour (refuted), the engine never creates one."
 ],
 "C26": [
  "proved",
  "64-bit and 32-bit generators separately (32-bit: distinct within 2^21-1 consecutive ones). 'Reserved ping number' means the value GetPingSession returns; the predicate IsPingSession tests fewer bits and accepts some ordinary numbers (refuted, exact 32-bit extent proved)."
 ],
 "C27": [
  "proved",
  "All event sequences without Reset, identifiers not 0, including re-entrant calls from callbacks, adjustments and clock changes; destruction outside callbacks is clean. Identifier 0, Reset followed by a start or by destruction, and late adjustment are refuted separately. Liveness is stated as: within two rounds of the io thread after the due time."
 ],
 "C33": [
  "proved",
  "SlipEncode / SlipDecodeChar and the UartInterface receive path: any receiver state, any chunking of the serial stream, any buffer availability, any bundles of 1..max bytes; oversize and empty ones dropped. Refuted: the bare decoder (without the UART framing) remembers a pending escape across a frame end."
 ],
 "C34": [
  "partial",
  "Proved for every RFC 7242 stream with non-empty EIDs and data segments within the receive limit, any chunking, any prefix, any preceding junk; generators meet the format; arbitrary bytes never cause out-of-bounds. The unconditional claim is false of the code (refuted): size limit depends on chunking, an empty data segment swallows the rest, a length field makes reserve throw."
 ],
 "C20": [
  "partial",
  "Proved for every legal history (any sizes, disks, interleavings of writers, readers, removals and disk threads). The legality condition is that a read session is not reopened while prefetched reads for it are still queued; without it the claim is false of the code (ReadFirstSegment leaves prefetches queued), see C20_session_reused_after_ReadFirstSegment_refuted. Disk I/O errors and the byte layout of the segment header are not modelled."
 ],
 "C21": [
  "partial",
  "For every disk image a successful restore yields exactly the complete chains up to the first unwritten segment, disjoint, with the matching allocator; stores stopped at rest are restored identically after any history and any number of restarts, and go on correctly. The claim for every crash point is false of the code: refuted with witnesses (full store never finishes, torn bundle aborts the restore, slow disk hides a written bundle, half written bundle accepted after custody id reuse)."
 ],
 "C28": [
  "partial",
  "Proved for every encoding, chunking, allocator below 32 GiB and stale memory: reports, order, return to the beginning, cut segments, rejection, definedness, generators, round trip, direction. Missing, and shown impossible by the _refuted theorems: runs of 32 high-bit bytes and lengths beyond memory are undefined or throw, the engine-id announcement before a rejection depends on the chunking, data pointing into an earlier packet, claim counts of 2^31 and more, more than 15 extensions, empty data segments."
 ],
 "C36": [
  "proved",
  "Whole of Uri.cpp except the uncalled iterator overload; the library number formatting and lexical_cast are trusted as modelled. That only canonical texts parse is refuted (signs, leading zeros, wrapping -1)."
 ],
 "C37": [
  "proved",
  "Exact acceptance, undefined behaviour characterised (the vectorised SDNV decoder's), exact bounded write, round trip. Two refutations: blocks longer than 127 bytes cannot be written; the received block length is not checked."
 ],
 "C38": [
  "proved",
  "Exact acceptance of headers and of the data of every class, exact bounded write, round trip for members within the parsers' limits. Three refutations: long previous hop, empty URI list, endpoint references."
 ],
 "C39": [
  "proved",
  "Exact Load, exact Render for all views reachable by edits from a loaded bundle whose block flags take one byte, render-load and load-render identities. Four refutations: non-minimal flags are corrupted, announced size wrong for flags above 127, fragments larger than the original lose data, fragments of administrative records do not load."
 ],
 "C40": [
  "proved",
  "For plans whose times are non-negative and never add up to more than the largest time_t. Two refutations: best_delivery_time is not the arrival for data there now, and a contact that carries a multiple of 2^64 bits is never used."
 ],
 "C41": [
  "proved",
  "Under the stated conditions on plan and nodes. Five refutations show that the search is wrong without them: a source without the smallest number, a neighbour without contacts, data arriving just as a contact ends, different delays, overlapping contacts."
 ],
 "C42": [
  "proved",
  "Refuted besides: routes stay good as time passes (contacts between other nodes ending change no route), the multigraph router takes the time into account, nodes with numbers from 2^31 are routed. Data races with the telemetry thread are assumed away."
 ],
 "C43": [
  "proved",
  "Under the stated conditions; three refutations show they are needed: abutting contacts listed in reverse order, a plan loaded while the expired timer's handler is queued, a second report of full storage (the handler restarts the timer but does not return)."
 ],
 "C44": [
  "proved",
  "Boost.CRC and the SSE4.2 instructions by their published definitions; a burst of three bytes can go undetected by CRC-16 (refuted)"
 ],
 "C45": [
  "proved",
  "Exact acceptance, exact write, round trip, damage detection. Six refutations: services of node 0 do not survive, members of unfragmented blocks keep stale values, expiration times wrap, sequence numbers from 2^50 on collide in the seconds scale, largestSerializedPrimarySize is six bytes less than the largest block, unknown CRC types are not written."
 ],
 "C46": [
  "proved",
  "Exact acceptance, exact write, round trip, in-place updates, damage detection. Two refutations: CBOR tag 24 is taken to be the single byte d8; unknown CRC types are announced with a size but not written. Administrative records and security blocks are separate claims."
 ],
 "C47": [
  "proved",
  "Exact acceptance, exact write, round trip, exact meaning of report equality. Five refutations: equality ignores the reported times, reports with nothing asserted are written but refused, an indefinite status array is accepted only without its break, malformed items and unknown record types with any content are accepted, tag 24 before an encapsulated bundle is refused."
 ],
 "C48": [
  "proved",
  "Bpv7AbstractSecurityBlock codec with values, parameter accessors and comparison. The parser may read past the data (source parsed with the whole data length, wrapping sizes): C48_stays_in_buffer_refuted gives a 45-byte bundle tail that makes it copy 4 GiB from behind the buffer. Indefinite arrays are refused unless of 1000 elements, ids count modulo 2^32, high reserved flags refused (refuted)."
 ],
 "C49": [
  "proved",
  "BundleViewV7 load, render, render in place, edits, queries and block numbers, on top of C44-C48. Refuted: rendered bundles always load (payload marked for deletion), GetSerializationSize predicts Render, block numbers are unique, the offered number is unused, BCB targets exist, RenderInPlace is safe with a changed payload (heap overrun of the temporary vector, then dangling pointers)."
 ],
 "C50": [
  "proved",
  "ProcessPaddedData up to the message to be sent, BPv6 and BPv7, without BPSec and masking, on top of C39 and C49. Refuted: hop limit always enforced (count 2^64-1), outcome independent of old memory (encrypted hop count block), previous node block readable at the next node (dangling BCB target), echoing ends, BPv6 echo well-formed (two-byte block flags), forwarded bundle within the size limit."
 ],
 "C51": [
  "proved",
  "The second half of ProcessPaddedData, the acknowledging sets and the thread that reads acknowledgements, telemetry and link events, as interleaved threads; on top of C50. Refuted: pipelines within the limits in force after telemetry lowers them, indices of acknowledgements in bounds, bundles from the router can wait for room, a bad first telemetry can be corrected, an accepted bundle can be stored, reserving twice can be undone."
 ],
 "C52": [
  "proved",
  "Any environment: counters, limits under constant telemetry, exact sends, acks, removals, round robin, priority, storing. Under the rules S_StorageIf.honest: never undefined, one place per bundle, timers, sleep. The rules are needed: fifteen refutations."
 ],
 "C53": [
  "proved",
  "Sending side of TcpAsyncSender, TCPCL version 3 and 4 and STCP, for all interleavings of both threads; the exact theorems concern one connection with a peer that acknowledges what it gets. Eleven refutations of what one might expect beyond that."
 ],
 "C54": [
  "proved",
  "Outducts are constrained by fair: they report each bundle they took at most once, with its user data. Link status is atomic except in the race theorems. Twelve refutations mark what does not hold."
 ],
 "C55": [
  "proved",
  "C52's and C54's models joined; their mutual assumptions are proved, not assumed. Left to the environment: S_StoreEgress.allowed. Lost answers strand bundles: refuted, so C55_settled assumes that no send fails."
 ],
 "C56": [
  "proved",
  "Full for bundles whose block flags take one byte and ids below 2^64-1; two refutations (names of records, buffer of large signals)."
 ],
 "C57": [
  "proved",
  "two statements one might expect are refuted: targets of one bundle share key and vector; vectors can repeat after a restart"
 ],
 "C58": [
  "proved",
  "three statements one might expect are refuted: hidden rules, roles that interfere, validation without effect"
 ],
 "C59": [
  "proved",
  "Exact per-block steps, exact failure actions, and end-to-end consequences for the payload; the cryptography is an arbitrary oracle. Five expectations refuted, among them stripped bundles being accepted and a verifier un-marking a block."
 ],
 "C60": [
  "proved",
  "Overload used by ingress; ideal cryptography; the rest is stated in DESIGN.md. Seven expectations are refuted."
 ],
 "C61": [
  "proved",
  "Header codec and reading of packets; sending side of the stream and connection handling are not modelled. Four expectations are refuted."
 ],
 "C62": [
  "proved",
  "StcpBundleSink as two interleaving threads, sequentially consistent. Errors, closing and deletion are not modelled. Two refutations: configured buffer size 1; bundles of 2^32 bytes."
 ],
 "C63": [
  "proved",
  "UdpBundleSink as two interleaving threads, sequentially consistent. Errors, shutting down and endpoints are not modelled. Two refutations: configured buffer size 1; datagrams longer than the configured size."
 ],
 "C64": [
  "proved",
  "Packets through BpSendStream and BpReceiveStream; queues that drop the oldest and threads are not modelled. Four refutations."
 ],
 "C65": [
  "proved",
  "All interleavings of Forward, posted handlers, token timer and completions. Token decisions arbitrary, rate limit fixed per execution. Four refutations: with two kinds of messages under a rate limit the link is closed or the wrong user data is reported; after a failed send the next completion is taken for the failed one; failures are never reported."
 ]
}