{
 "claims": [
  {
   "property": "C01",
   "status": "proved",
   "theorems": [
    "C01_insert_history_is_union",
    "C01_insert_one",
    "C01_insert_library_choice_irrelevant",
    "C01_insert_at_uint64_max_refuted"
   ],
   "note": "All insertion histories with end < 2^64-1; the boundary end = 2^64-1 is refuted with a witness."
  },
  {
   "property": "C02",
   "status": "proved",
   "theorems": [
    "C02_contains_entirely_iff_all_covered",
    "C02_does_not_contain_iff_none_covered",
    "C02_sets_overlap_iff_common_index",
    "C02_get_overlap_is_intersection",
    "C02_get_overlap_nonempty"
   ],
   "note": "All canonical sets and all keys."
  },
  {
   "property": "C03",
   "status": "partial",
   "theorems": [
    "C03_remove_uncovers_exactly_refuted",
    "C03_remove_uncovers_exactly_partial",
    "C03_remove_abutting_does_nothing",
    "C03_remove_single_index_exact",
    "C03_every_history_stays_canonical"
   ],
   "note": "The unconditional claim is false of the code (early stop): refuted with a witness; proved under the exact condition that no stored fragment ends right before the removed range, for single indices, and canonical form for every history."
  },
  {
   "property": "C04",
   "status": "proved",
   "theorems": [
    "C04_bounds_minus_fragments_exact"
   ],
   "note": "All bounds, all canonical sets."
  },
  {
   "property": "C05",
   "status": "proved",
   "theorems": [
    "C05_report_claims_exactly_received",
    "C05_report_of_any_reception_history"
   ],
   "note": "All received sets and scopes incl. auto-detected bounds."
  },
  {
   "property": "C06",
   "status": "proved",
   "theorems": [
    "C06_split_loses_and_invents_nothing",
    "C06_each_piece_agrees_with_original",
    "C06_pieces_partition_scope",
    "C06_split_of_claimless_report_refuted"
   ],
   "note": "All well formed reports with at least one claim; a claimless report is undefined behaviour (refuted)."
  },
  {
   "property": "C07",
   "status": "partial",
   "theorems": [
    "C07_accepting_report_acks_exactly_claimed",
    "C07_needing_resent_exactly_unclaimed_partial",
    "C07_needing_resent_touching_claims_refuted",
    "C07_reduce_resends_exactly_unacked"
   ],
   "note": "Reduction and acknowledgement proved in full. The needing-resent routine (not used by the sender) is proved for claims with gaps and refuted for touching claims."
  },
  {
   "property": "C08",
   "status": "proved",
   "theorems": [
    "C08_every_history_meets_specification",
    "C08_allocation_returns_lowest_free"
   ],
   "note": "All capacities <= 2^32-4, 32/64-bit ids, all histories; includes absence of out-of-range row access and of find_lsb(0)."
  },
  {
   "property": "C09",
   "status": "proved",
   "theorems": [
    "C09_allocate_many_all_or_nothing"
   ],
   "note": "All reachable states and all n."
  },
  {
   "property": "C10",
   "status": "proved",
   "theorems": [
    "C10_free_is_exact",
    "C10_reserve_is_exact",
    "C10_free_many_is_exact"
   ],
   "note": "All reachable states, all ids (in and out of range), lists of ids."
  },
  {
   "property": "C11",
   "status": "proved",
   "theorems": [
    "C11_encode64_writes_shortest_sdnv",
    "C11_encode32_writes_shortest_sdnv",
    "C11_decode64_meets_specification",
    "C11_decode32_meets_specification",
    "C11_decode64_consumes_within_bounds",
    "C11_roundtrip64",
    "C11_roundtrip32",
    "C11_num_bytes_is_shortest_length"
   ],
   "note": "All 64/32-bit values, all buffers, all byte strings, through the dispatching entry points of the AVX2/BMI2 build; intrinsics semantics are trusted (M_Intrin.v)."
  },
  {
   "property": "C12",
   "status": "partial",
   "theorems": [
    "C12_decode64_fast_equals_classic",
    "C12_decode32_fast_equals_classic",
    "C12_encode64_fast_equals_classic",
    "C12_encode32_fast_equals_classic",
    "C12_encode_nocheck_equals_classic",
    "C12_array_classic_meets_specification",
    "C12_array_fast_meets_specification",
    "C12_array_fast_equals_classic",
    "C12_array_fast_undefined_iff",
    "C12_array_fast_total_refuted"
   ],
   "note": "Single-value decoders: all inputs. Array decode: the fast path equals the specification and the classic path on every input except exactly when an SDNV it reaches starts with 32 continuation bytes; there it is undefined (proved as an iff) and the unconditional claim is refuted with a witness."
  },
  {
   "property": "C13",
   "status": "proved",
   "theorems": [
    "C13_encode_writes_shortest_form",
    "C13_decode_meets_specification",
    "C13_decode_consumes_within_bounds",
    "C13_roundtrip",
    "C13_num_bytes_is_shortest_length",
    "C13_encode_fast_equals_classic",
    "C13_decode_fast_equals_classic",
    "C13_strict_scan_nonzero",
    "C13_strict_scan_of_zero_refuted"
   ],
   "note": "All 2^64 values, all buffers, all byte strings, fast and classic. The bit scan of zero the code evaluates for the value 0 is taken to yield an arbitrary byte; under the strict reading (undefined) it is refuted with a witness."
  },
  {
   "property": "C14",
   "status": "proved",
   "theorems": [
    "C14_consumer_reads_committed_items_in_order",
    "C14_writes_never_overwrite_unreleased",
    "C14_capacity",
    "C14_capacity_attained",
    "C14_full_exactly_when_no_room",
    "C14_empty_exactly_when_nothing_committed",
    "C14_producer_count",
    "C14_consumer_count",
    "C14_third_thread_count_refuted"
   ],
   "note": "Release/acquire model: every interleaving and every value a load may return; no race, FIFO, capacity size-1, full/empty exact, counts bounded; NumInBuffer from a third thread refuted."
  },
  {
   "property": "C15",
   "status": "proved",
   "theorems": [
    "C15_behaves_as_a_finite_map",
    "C15_key_types_are_totally_ordered",
    "C15_no_key_stored_twice"
   ],
   "note": "The 65536-bucket table of sorted lists (HashMap16BitFixedSize) answers insert, take, find and in-place update exactly as a finite map, for any hash function with 16-bit results, for the four key types used; operator< of those key types is proved a strict total order."
  },
  {
   "property": "C16",
   "status": "proved",
   "theorems": [
    "C16_catalog_follows_the_lists",
    "C16_sequence_order",
    "C16_priority_three_indexes_out_of_bounds_refuted",
    "C16_late_expiration_goes_first_refuted"
   ],
   "note": "All histories of store, pop, return, remove, lookup and expiry calls from an empty catalog follow two plain lists (stored, waiting). Caller obligations are explicit: priorities 0-2, expirations below 2^60, fresh custody ids, FIFO or FILO order. Refutations show priority 3 and expirations of 2^60 or more are mishandled. Ordering by sequence is a separate theorem."
  },
  {
   "property": "C17",
   "status": "proved",
   "theorems": [
    "C17_queued_once_gone_after_removal",
    "C17_refused_bundle_leaves_its_uuid_refuted",
    "C17_removed_while_waiting_stays_queued_refuted"
   ],
   "note": "Every state of every history: queued exactly once iff waiting, ids not stored resolve to nothing. Refutations: a bundle refused by sequence ordering leaves its uuid behind; removing a waiting bundle as sent leaves its id queued."
  },
  {
   "property": "C18",
   "status": "proved",
   "theorems": [
    "C18_id_in_use_never_issued",
    "C18_used_sets_exact",
    "C18_lowest_block_reserved",
    "C18_source_ids_consecutive",
    "C18_freed_twice_refuted"
   ],
   "note": "All histories that free only ids in use, any restored ids below 2^63, fewer than 2^53 calls; used sets exact (no leak); consecutive ids per source; freeing an id twice after its block is recycled is refuted."
  },
  {
   "property": "C19",
   "status": "proved",
   "theorems": [
    "C19_timers_follow_the_list",
    "C19_start_order_across_destinations_refuted",
    "C19_clock_set_back_hides_due_timer_refuted",
    "C19_cancel_with_other_destination_undefined_refuted"
   ],
   "note": "All histories of start, cancel, both polls and both counts follow the list of running timers. Hypotheses: clock not set back between starts, cancel with the destination used at start; refutations show both are needed and that start order holds per destination only."
  },
  {
   "property": "C20",
   "status": "partial",
   "theorems": [
    "C20_every_history_reads_back",
    "C20_pieces_make_the_bundle",
    "C20_nobody_waits_for_ever",
    "C20_session_reused_after_ReadFirstSegment_refuted",
    "C20_refused_bundle_keeps_its_segments_refuted"
   ],
   "note": "Proved for every legal history (any sizes, disks, interleavings of writers, readers, removals and disk threads). The legality condition is that a read session is not reopened while prefetched reads for it are still queued; without it the claim is false of the code (ReadFirstSegment leaves prefetches queued), see C20_session_reused_after_ReadFirstSegment_refuted. Disk I/O errors and the byte layout of the segment header are not modelled."
  },
  {
   "property": "C21",
   "status": "partial",
   "theorems": [
    "C21_restored_bundles_are_on_the_image",
    "C21_image_is_restored",
    "C21_stopped_store_is_restored",
    "C21_store_goes_on_after_restarts",
    "C21_full_store_never_finishes",
    "C21_full_store_hangs_at_restart_refuted",
    "C21_torn_bundle_loses_the_others_refuted",
    "C21_slow_disk_hides_a_written_bundle_refuted",
    "C21_half_written_bundle_accepted_refuted"
   ],
   "note": "For every disk image a successful restore yields exactly the complete chains up to the first unwritten segment, disjoint, with the matching allocator; stores stopped at rest are restored identically after any history and any number of restarts, and go on correctly. The claim for every crash point is false of the code: refuted with witnesses (full store never finishes, torn bundle aborts the restore, slow disk hides a written bundle, half written bundle accepted after custody id reuse)."
  },
  {
   "property": "C22",
   "status": "proved",
   "theorems": [
    "C22_first_pass_tiles_the_block",
    "C22_marks_are_unique",
    "C22_checkpoint_serials_distinct",
    "C22_every_nth_red_segment_is_a_checkpoint",
    "C22_report_beyond_block_reads_out_of_bounds_refuted"
   ],
   "note": "First pass of LtpSessionSender in memory mode, interleaved with arbitrary other events. Serial numbers distinct until the 64-bit counter runs over. Refuted: a report whose bounds exceed the block makes the sender read outside the block."
  },
  {
   "property": "C23",
   "status": "proved",
   "theorems": [
    "C23_honest_segments_are_safe",
    "C23_red_part_delivered_exactly_once",
    "C23_reports_claim_only_received_bytes",
    "C23_honest_segments_never_cancelled",
    "C23_green_segments_handed_through",
    "C23_wrapping_offset_writes_out_of_bounds_refuted",
    "C23_reused_checkpoint_serial_blocks_delivery_refuted"
   ],
   "note": "LtpSessionReceiver in memory mode; segments of one block, checkpoint serial numbers naming one range each, red part within the configured limit. Refuted without these: wrapping offset writes out of bounds, reused serial number blocks delivery."
  },
  {
   "property": "C24",
   "status": "proved",
   "theorems": [
    "C24_no_step_is_undefined",
    "C24_completion_implies_delivery",
    "C24_every_segment_sent_is_correct",
    "C24_at_most_one_outcome",
    "C24_delivered_yet_never_completed_refuted"
   ],
   "note": "Sender and receiver session joined by a network that may drop, duplicate, delay and reorder; 64-bit checkpoint counter does not run over; session deletion, cancel segments and the byte encoding of segments are not part of this model. The converse is refuted: delivered data whose sender can never complete."
  },
  {
   "property": "C25",
   "status": "proved",
   "theorems": [
    "C25_remembers_exactly_the_latest",
    "C25_size_zero_undefined_refuted"
   ],
   "note": "For every size n with 1 <= n < 2^64 and every sequence of AddSession calls: each call is defined, refuses exactly the n latest accepted numbers, and ContainsSession agrees. Size 0 is undefined behaviour (refuted), the engine never creates one."
  },
  {
   "property": "C26",
   "status": "proved",
   "theorems": [
    "C26_session_numbers_64",
    "C26_session_numbers_32",
    "C26_ping_numbers",
    "C26_ordinary_session_taken_for_ping_refuted",
    "C26_when_taken_for_ping_32",
    "C26_is_ping_exact",
    "C26_serial_numbers"
   ],
   "note": "64-bit and 32-bit generators separately (32-bit: distinct within 2^21-1 consecutive ones). 'Reserved ping number' means the value GetPingSession returns; the predicate IsPingSession tests fewer bits and accepts some ordinary numbers (refuted, exact 32-bit extent proved)."
  },
  {
   "property": "C27",
   "status": "proved",
   "theorems": [
    "C27_timers_follow_the_list",
    "C27_identifier_zero_blocks_everything_refuted",
    "C27_restart_after_reset_fires_early_refuted",
    "C27_destroy_after_reset_use_after_free_refuted",
    "C27_adjusted_later_still_fires_refuted"
   ],
   "note": "All event sequences without Reset, identifiers not 0, including re-entrant calls from callbacks, adjustments and clock changes; destruction outside callbacks is clean. Identifier 0, Reset followed by a start or by destruction, and late adjustment are refuted separately. Liveness is stated as: within two rounds of the io thread after the due time."
  },
  {
   "property": "C28",
   "status": "partial",
   "theorems": [
    "C28_any_chunking",
    "C28_whole_packets",
    "C28_cut_segment_is_not_reported",
    "C28_outcome_depends_only_on_bytes",
    "C28_rejection_is_final",
    "C28_arbitrary_bytes",
    "C28_generators",
    "C28_roundtrip",
    "C28_direction",
    "C28_33_bytes_undefined_refuted",
    "C28_length_field_throws_refuted",
    "C28_engine_id_depends_on_chunking_refuted",
    "C28_data_in_reused_packet_refuted",
    "C28_claim_count_wraps_refuted",
    "C28_sixteen_extensions_refuted",
    "C28_empty_data_refused_refuted"
   ],
   "note": "Proved for every encoding, chunking, allocator below 32 GiB and stale memory: reports, order, return to the beginning, cut segments, rejection, definedness, generators, round trip, direction. Missing, and shown impossible by the _refuted theorems: runs of 32 high-bit bytes and lengths beyond memory are undefined or throw, the engine-id announcement before a rejection depends on the chunking, data pointing into an earlier packet, claim counts of 2^31 and more, more than 15 extensions, empty data segments."
  },
  {
   "property": "C29",
   "status": "proved",
   "theorems": [
    "C29_serialize_writes_announced_size",
    "C29_roundtrip",
    "C29_decode_consumes_all_or_fails",
    "C29_decode_covers_denoted_ids",
    "C29_status_roundtrip",
    "C29_add_returns_number_of_fills",
    "C29_malformed_fill_rejected_refuted",
    "C29_short_buffer_safe_refuted"
   ],
   "note": "Encode/decode round trip for every id set below 2^64-1 and every large enough buffer; decoding of arbitrary bytes characterised exactly. Refuted: fills of length 0 or wrapping past 2^64-1 are accepted; a too small buffer yields bytes acknowledging other ids."
  },
  {
   "property": "C30",
   "status": "proved",
   "theorems": [
    "C30_queue_is_a_list",
    "C30_insert_behind_last_breaks_push_back_refuted"
   ],
   "note": "ForwardListQueue behaves as a list under push, pop, remove and iteration; a refutation theorem records that insertion behind the last element through emplace_after leaves the stored end iterator stale."
  },
  {
   "property": "C31",
   "status": "proved",
   "theorems": [
    "C31_never_over_budget",
    "C31_can_take_agrees",
    "C31_refills",
    "C31_no_overflow",
    "C31_idle_time_overflows_refuted",
    "C31_remaining_tokens"
   ],
   "note": "All histories, exact units; agreement of CanTakeTokens/TakeTokens; refill; no overflow under stated sizes; overflow after long idle time refuted."
  },
  {
   "property": "C32",
   "status": "proved",
   "theorems": [
    "C32_fragments_tile_the_payload",
    "C32_fragment_refuses",
    "C32_any_complete_collection_assembles",
    "C32_roundtrip_in_any_order",
    "C32_fragments_of_a_fragment",
    "C32_manager_completes_exactly",
    "C32_foreign_fragments_refused",
    "C32_manager_keeps_bundles_apart",
    "C32_assemble_refuses_incomplete_refuted",
    "C32_manager_never_early_refuted",
    "C32_manager_memory_safe_refuted"
   ],
   "note": "Tiling, refusals, round trip in any order, nested fragmentation, and the fragment manager under any interleaving of well-formed fragments. Block parsing/rendering is not modelled. Refuted: Assemble accepts incomplete contiguous runs; the manager completes early on inconsistent totals or an empty fragment; offset+length wrap writes out of bounds."
  },
  {
   "property": "C33",
   "status": "proved",
   "theorems": [
    "C33_encoding_shape",
    "C33_uart_receives_exactly_the_bundles",
    "C33_uart_transparent",
    "C33_oversize_and_empty_dropped",
    "C33_bare_decoder_remembers_escape_refuted"
   ],
   "note": "SlipEncode / SlipDecodeChar and the UartInterface receive path: any receiver state, any chunking of the serial stream, any buffer availability, any bundles of 1..max bytes; oversize and empty ones dropped. Refuted: the bare decoder (without the UART framing) remembers a pending escape across a frame end."
  },
  {
   "property": "C34",
   "status": "partial",
   "theorems": [
    "C34_any_chunking",
    "C34_generators",
    "C34_arbitrary_bytes_are_safe",
    "C34_skips_junk",
    "C34_size_limit_depends_on_chunking_refuted",
    "C34_empty_segment_swallows_the_rest_refuted",
    "C34_length_field_throws_refuted"
   ],
   "note": "Proved for every RFC 7242 stream with non-empty EIDs and data segments within the receive limit, any chunking, any prefix, any preceding junk; generators meet the format; arbitrary bytes never cause out-of-bounds. The unconditional claim is false of the code (refuted): size limit depends on chunking, an empty data segment swallows the rest, a length field makes reserve throw."
  },
  {
   "property": "C35",
   "status": "partial",
   "theorems": [
    "C35_array_deserialize_exact",
    "C35_short_indefinite_array_rejected_refuted",
    "C35_array_serialize_exact",
    "C35_array_roundtrip",
    "C35_array_serialize_memory_safe",
    "C35_array_serialize_empty_buffer_refuted",
    "C35_two_deserialize_exact",
    "C35_two_serialize_exact",
    "C35_two_serialize_memory_safe"
   ],
   "note": "Deserialisers characterised exactly, serialisers proved for all element lists; refuted: short indefinite-length arrays are rejected, and the checked array serialiser writes one byte past an empty buffer."
  },
  {
   "property": "C36",
   "status": "proved",
   "theorems": [
    "C36_text_is_canonical",
    "C36_announced_size_is_exact",
    "C36_digit_count_is_exact",
    "C36_write_is_exact_and_bounded",
    "C36_parse_ssp_is_exact",
    "C36_parse_is_exact",
    "C36_roundtrip",
    "C36_text_is_injective",
    "C36_only_canonical_texts_parse_refuted"
   ],
   "note": "Whole of Uri.cpp except the uncalled iterator overload; the library number formatting and lexical_cast are trusted as modelled. That only canonical texts parse is refuted (signs, leading zeros, wrapping -1)."
  },
  {
   "property": "C37",
   "status": "proved",
   "theorems": [
    "C37_parse_is_exact",
    "C37_parse_undefined_iff",
    "C37_write_is_exact_and_bounded",
    "C37_roundtrip",
    "C37_every_primary_block_can_be_written_refuted",
    "C37_parsed_length_is_right_refuted"
   ],
   "note": "Exact acceptance, undefined behaviour characterised (the vectorised SDNV decoder's), exact bounded write, round trip. Two refutations: blocks longer than 127 bytes cannot be written; the received block length is not checked."
  },
  {
   "property": "C38",
   "status": "proved",
   "theorems": [
    "C38_header_is_exact",
    "C38_data_is_exact",
    "C38_write_is_exact_and_bounded",
    "C38_roundtrip",
    "C38_previous_hop_roundtrips_refuted",
    "C38_empty_uri_list_roundtrips_refuted",
    "C38_endpoint_references_are_read_refuted"
   ],
   "note": "Exact acceptance of headers and of the data of every class, exact bounded write, round trip for members within the parsers' limits. Three refutations: long previous hop, empty URI list, endpoint references."
  },
  {
   "property": "C39",
   "status": "proved",
   "theorems": [
    "C39_load_is_exact",
    "C39_load_undefined_iff",
    "C39_render_is_exact",
    "C39_render_refuses_long_primary",
    "C39_render_then_load",
    "C39_load_render_is_identity",
    "C39_edits_keep_views_sendable",
    "C39_edits_take_effect",
    "C39_payload_size_is_exact",
    "C39_delete_by_type_is_exact",
    "C39_load_render_is_always_identity_refuted",
    "C39_announced_size_is_always_right_refuted",
    "C39_fragments_fit_original_size_refuted",
    "C39_fragments_of_records_load_refuted"
   ],
   "note": "Exact Load, exact Render for all views reachable by edits from a loaded bundle whose block flags take one byte, render-load and load-render identities. Four refutations: non-minimal flags are corrupted, announced size wrong for flags above 127, fragments larger than the original lose data, fragments of administrative records do not load."
  },
  {
   "property": "C40",
   "status": "proved",
   "theorems": [
    "C40_dijkstra_is_earliest",
    "C40_route_metrics_are_exact",
    "C40_no_route_to_oneself",
    "C40_best_delivery_time_is_the_arrival_refuted",
    "C40_every_unended_contact_is_used_refuted"
   ],
   "note": "For plans whose times are non-negative and never add up to more than the largest time_t. Two refutations: best_delivery_time is not the arrival for data there now, and a contact that carries a multiple of 2^64 bits is never used."
  },
  {
   "property": "C41",
   "status": "proved",
   "theorems": [
    "C41_multigraph_search_is_earliest",
    "C41_any_source_refuted",
    "C41_dead_ends_do_no_harm_refuted",
    "C41_no_assertion_fails_refuted",
    "C41_earliest_with_different_delays_refuted",
    "C41_overlapping_contacts_refuted"
   ],
   "note": "Under the stated conditions on plan and nodes. Five refutations show that the search is wrong without them: a source without the smallest number, a neighbour without contacts, data arriving just as a contact ends, different delays, overlapping contacts."
  },
  {
   "property": "C42",
   "status": "proved",
   "theorems": [
    "C42_the_last_word_is_the_state",
    "C42_the_books_agree",
    "C42_next_hops_have_outducts",
    "C42_link_up_refreshes_every_route",
    "C42_link_down_reroutes",
    "C42_only_links_change_routes",
    "C42_a_new_plan_starts_afresh",
    "C42_routes_stay_good_refuted",
    "C42_multigraph_router_knows_the_time_refuted",
    "C42_every_destination_is_routed_refuted"
   ],
   "note": "Refuted besides: routes stay good as time passes (contacts between other nodes ending change no route), the multigraph router takes the time into account, nodes with numbers from 2^31 are routed. Data races with the telemetry thread are assumed away."
  },
  {
   "property": "C43",
   "status": "proved",
   "theorems": [
    "C43_no_event_is_forgotten",
    "C43_links_follow_the_plan",
    "C43_full_storage_passes",
    "C43_links_are_held_down",
    "C43_the_announced_state",
    "C43_links_follow_any_plan_refuted",
    "C43_links_follow_a_plan_loaded_any_time_refuted",
    "C43_links_are_held_down_refuted"
   ],
   "note": "Under the stated conditions; three refutations show they are needed: abutting contacts listed in reverse order, a plan loaded while the expired timer's handler is queued, a second report of full storage (the handler restarts the timer but does not return)."
  },
  {
   "property": "C44",
   "status": "proved",
   "theorems": [
    "C44_crc16_is_the_standard_checksum",
    "C44_crc32c_is_the_standard_checksum",
    "C44_bursts_are_detected",
    "C44_longer_bursts_are_detected_refuted",
    "C44_the_field_round_trips",
    "C44_only_fields_are_read"
   ],
   "note": "Boost.CRC and the SSE4.2 instructions by their published definitions; a burst of three bytes can go undetected by CRC-16 (refuted)"
  },
  {
   "property": "C45",
   "status": "proved",
   "theorems": [
    "C45_endpoint_parse_is_exact",
    "C45_endpoint_write_is_exact",
    "C45_parse_is_exact",
    "C45_write_is_exact",
    "C45_written_blocks_read_back",
    "C45_damage_is_rejected",
    "C45_expiration_is_creation_plus_lifetime",
    "C45_seconds_scale_keeps_the_order",
    "C45_endpoints_survive_refuted",
    "C45_members_come_from_the_bytes_refuted",
    "C45_expiration_is_after_creation_refuted",
    "C45_seconds_scale_is_injective_refuted",
    "C45_largest_size_is_enough_refuted",
    "C45_every_block_is_written_refuted"
   ],
   "note": "Exact acceptance, exact write, round trip, damage detection. Six refutations: services of node 0 do not survive, members of unfragmented blocks keep stale values, expiration times wrap, sequence numbers from 2^50 on collide in the seconds scale, largestSerializedPrimarySize is six bytes less than the largest block, unknown CRC types are not written."
  },
  {
   "property": "C46",
   "status": "proved",
   "theorems": [
    "C46_parse_is_exact",
    "C46_write_is_exact",
    "C46_written_blocks_read_back",
    "C46_extension_parse_is_exact",
    "C46_extension_write_is_exact",
    "C46_extensions_round_trip",
    "C46_hop_count_in_place",
    "C46_recomputed_crc_is_right",
    "C46_aad_part_is_exact",
    "C46_damage_is_rejected",
    "C46_tagged_data_is_accepted_refuted",
    "C46_every_block_is_written_refuted"
   ],
   "note": "Exact acceptance, exact write, round trip, in-place updates, damage detection. Two refutations: CBOR tag 24 is taken to be the single byte d8; unknown CRC types are announced with a size but not written. Administrative records and security blocks are separate claims."
  },
  {
   "property": "C47",
   "status": "proved",
   "theorems": [
    "C47_parse_is_exact",
    "C47_write_is_exact",
    "C47_records_round_trip",
    "C47_equal_reports_agree",
    "C47_times_compared_refuted",
    "C47_reports_round_trip_refuted",
    "C47_indefinite_status_array_refuted",
    "C47_wellformed_only_refuted",
    "C47_encoded_tag_refuted"
   ],
   "note": "Exact acceptance, exact write, round trip, exact meaning of report equality. Five refutations: equality ignores the reported times, reports with nothing asserted are written but refused, an indefinite status array is accepted only without its break, malformed items and unknown record types with any content are accepted, tag 24 before an encapsulated bundle is refused."
  },
  {
   "property": "C48",
   "status": "proved",
   "theorems": [
    "C48_parse_accepts_exactly",
    "C48_accepted_is_wellformed",
    "C48_reading_is_unambiguous",
    "C48_write_is_exact",
    "C48_written_data_is_unique",
    "C48_blocks_round_trip",
    "C48_parameters_are_set",
    "C48_scope_and_results",
    "C48_equal_blocks_agree",
    "C48_stays_in_buffer_refuted",
    "C48_indefinite_arrays_refuted",
    "C48_ids_are_distinct_refuted",
    "C48_reserved_flags_refuted"
   ],
   "note": "Bpv7AbstractSecurityBlock codec with values, parameter accessors and comparison. The parser may read past the data (source parsed with the whole data length, wrapping sizes): C48_stays_in_buffer_refuted gives a 45-byte bundle tail that makes it copy 4 GiB from behind the buffer. Indefinite arrays are refused unless of 1000 elements, ids count modulo 2^32, high reserved flags refused (refuted)."
  },
  {
   "property": "C49",
   "status": "proved",
   "theorems": [
    "C49_load_is_exact",
    "C49_load_is_defined",
    "C49_load_primary_only",
    "C49_render_is_exact",
    "C49_render_needs_payload",
    "C49_load_render_is_identity",
    "C49_render_then_load",
    "C49_render_in_place_is_exact",
    "C49_render_refuses_fragments",
    "C49_render_in_place_needs_unchanged_payload",
    "C49_edits_keep_views_sendable",
    "C49_edits_take_effect",
    "C49_queries_are_exact",
    "C49_delete_by_type_is_exact",
    "C49_next_free_number",
    "C49_numbers_stay_right",
    "C49_rendered_bundles_load_refuted",
    "C49_size_known_iff_renderable_refuted",
    "C49_block_numbers_are_unique_refuted",
    "C49_next_free_is_unused_refuted",
    "C49_bcb_targets_exist_refuted",
    "C49_render_in_place_is_safe_refuted"
   ],
   "note": "BundleViewV7 load, render, render in place, edits, queries and block numbers, on top of C44-C48. Refuted: rendered bundles always load (payload marked for deletion), GetSerializationSize predicts Render, block numbers are unique, the offered number is unused, BCB targets exist, RenderInPlace is safe with a changed payload (heap overrun of the temporary vector, then dangling pointers)."
  },
  {
   "property": "C50",
   "status": "proved",
   "theorems": [
    "C50_bpv7_processing_is_exact",
    "C50_bpv7_processing_is_defined",
    "C50_forwarded_bundle_at_next_node",
    "C50_bpv7_from_storage_is_unchanged",
    "C50_hop_counts_add_up",
    "C50_bpv6_processing_is_exact",
    "C50_bpv6_from_storage_is_unchanged",
    "C50_version_and_size_are_checked",
    "C50_hop_limit_is_always_enforced_refuted",
    "C50_outcome_is_determined_refuted",
    "C50_previous_node_is_always_readable_refuted",
    "C50_echo_ends_refuted",
    "C50_bpv6_echo_is_always_sound_refuted",
    "C50_forwarded_bundle_is_within_limit_refuted"
   ],
   "note": "ProcessPaddedData up to the message to be sent, BPv6 and BPv7, without BPSec and masking, on top of C39 and C49. Refuted: hop limit always enforced (count 2^64-1), outcome independent of old memory (encrypted hop count block), previous node block readable at the next node (dangling BCB target), echoing ends, BPv6 echo well-formed (two-byte block flags), forwarded bundle within the size limit."
  },
  {
   "property": "C51",
   "status": "proved",
   "theorems": [
    "C51_accounting_is_exact",
    "C51_pipelines_hold_what_is_under_way",
    "C51_nothing_leaks",
    "C51_limits_hold",
    "C51_memory_is_bounded",
    "C51_egress_first_then_storage",
    "C51_one_fate",
    "C51_fate_is_final",
    "C51_custody_goes_to_storage",
    "C51_messages_are_exact",
    "C51_dispatch_stays_in_bounds",
    "C51_every_bundle_meets_its_fate",
    "C51_lost_only_when",
    "C51_storage_takes_one_bundle",
    "C51_routes_follow_telemetry",
    "C51_limits_and_hops_follow_telemetry",
    "C51_next_hop_is_the_outducts",
    "C51_pipeline_always_within_current_limit_refuted",
    "C51_acknowledgements_stay_in_bounds_refuted",
    "C51_bundles_from_router_wait_for_room_refuted",
    "C51_bad_telemetry_is_recoverable_refuted",
    "C51_accepted_bundle_can_be_stored_refuted",
    "C51_reserving_twice_is_undone_refuted"
   ],
   "note": "The second half of ProcessPaddedData, the acknowledging sets and the thread that reads acknowledgements, telemetry and link events, as interleaved threads; on top of C50. Refuted: pipelines within the limits in force after telemetry lowers them, indices of acknowledgements in bounds, bundles from the router can wait for room, a bad first telemetry can be corrected, an accepted bundle can be stored, reserving twice can be undone."
  },
  {
   "property": "C52",
   "status": "proved",
   "theorems": [
    "C52_books_balance",
    "C52_limits_hold",
    "C52_sends_are_exact",
    "C52_round_robin",
    "C52_every_link_gets_its_turn",
    "C52_priority_is_enforced",
    "C52_acks_are_conserved",
    "C52_store_is_exact",
    "C52_removed_only_when_done",
    "C52_never_undefined",
    "C52_nothing_stranded",
    "C52_timer_resends",
    "C52_sleeps_only_when_done",
    "C52_limits_hold_always_refuted",
    "C52_early_link_down_is_kept_refuted",
    "C52_ack_means_stored_refuted",
    "C52_ids_in_use_are_of_bundles_refuted",
    "C52_refused_custody_leaves_nothing_refuted",
    "C52_failed_read_is_retried_refuted",
    "C52_removed_link_returns_its_bundles_refuted",
    "C52_late_answer_is_harmless_refuted",
    "C52_signals_are_harmless_refuted",
    "C52_outduct_index_is_checked_refuted",
    "C52_sleeps_only_when_queues_are_empty_refuted",
    "C52_destination_is_kept_refuted",
    "C52_failed_send_is_retried_refuted",
    "C52_answers_are_heeded_refuted",
    "C52_opportunistic_link_comes_back_refuted",
    "C52_returned_bundles_are_stored",
    "C52_reported_links_are_down"
   ],
   "note": "Any environment: counters, limits under constant telemetry, exact sends, acks, removals, round robin, priority, storing. Under the rules S_StorageIf.honest: never undefined, one place per bundle, timers, sleep. The rules are needed: fifteen refutations."
  },
  {
   "property": "C53",
   "status": "proved",
   "theorems": [
    "C53_segments_carry_the_bundle",
    "C53_v3_reports_in_order",
    "C53_v3_sent_means_acknowledged",
    "C53_v4_reports_in_order",
    "C53_v4_transfer_ids_differ",
    "C53_v4_sent_means_acknowledged",
    "C53_stcp_sent_means_written",
    "C53_v3_failures_are_anonymous",
    "C53_v4_failures_are_anonymous",
    "C53_failures_name_their_bundle_refuted",
    "C53_v3_sent_after_reconnecting_refuted",
    "C53_v3_blocked",
    "C53_v3_reports_resume_refuted",
    "C53_v4_every_bundle_is_reported_refuted",
    "C53_v4_session_never_crashes_refuted",
    "C53_v4_buffer_is_bounded_refuted",
    "C53_v4_transfer_limit_is_kept_refuted",
    "C53_v4_no_bundle_disappears_refuted",
    "C53_stcp_blocked",
    "C53_stcp_reports_resume_refuted",
    "C53_stcp_never_null_refuted",
    "C53_stcp_written_means_reported_refuted"
   ],
   "note": "Sending side of TcpAsyncSender, TCPCL version 3 and 4 and STCP, for all interleavings of both threads; the exact theorems concern one connection with a peer that acknowledges what it gets. Eleven refutations of what one might expect beyond that."
  },
  {
   "property": "C54",
   "status": "proved",
   "theorems": [
    "C54_every_answer_is_accounted_for",
    "C54_every_bundle_is_accounted_for",
    "C54_nothing_is_lost",
    "C54_what_is_sent_is_true",
    "C54_bundles_go_their_way",
    "C54_router_knows_the_links",
    "C54_telemetry_follows_the_routes",
    "C54_schedule_and_rate",
    "C54_never_undefined",
    "C54_failures_blame_the_outduct",
    "C54_when_egress_starts",
    "C54_link_status_in_turn",
    "C54_failed_bundle_names_its_outduct_refuted",
    "C54_unroutable_bundle_blames_no_outduct_refuted",
    "C54_bundle_survives_early_report_refuted",
    "C54_failures_without_user_data_refuted",
    "C54_answers_name_the_outduct_that_failed_refuted",
    "C54_answers_are_repeated_refuted",
    "C54_opportunistic_bundles_are_handed_over_refuted",
    "C54_every_bundle_left_is_answered_refuted",
    "C54_down_means_disconnected_refuted",
    "C54_last_route_wins_refuted",
    "C54_pipelines_hold_the_largest_bundle_refuted",
    "C54_router_knows_the_link_despite_races_refuted"
   ],
   "note": "Outducts are constrained by fair: they report each bundle they took at most once, with its user data. Link status is atomic except in the race theorems. Twelve refutations mark what does not hold."
  },
  {
   "property": "C55",
   "status": "proved",
   "theorems": [
    "C55_contracts_are_kept",
    "C55_never_undefined",
    "C55_egress_has_what_storage_gave",
    "C55_settled",
    "C55_removed_only_when_done",
    "C55_answered_bundles_wait",
    "C55_storage_knows_the_routes",
    "C55_deleted_bundles_were_sent_refuted",
    "C55_lost_answers_are_repaired_refuted",
    "C55_the_link_that_failed_goes_down_refuted",
    "C55_failed_cut_through_takes_its_link_down_refuted",
    "C55_returned_bundles_are_stored"
   ],
   "note": "C52's and C54's models joined; their mutual assumptions are proved, not assumed. Left to the environment: S_StoreEgress.allowed. Lost answers strand bundles: refuted, so C55_settled assumes that no send fails."
  },
  {
   "property": "C56",
   "status": "proved",
   "theorems": [
    "C56_info_is_exact",
    "C56_acceptance_is_exact",
    "C56_refusal_is_exact",
    "C56_decision_is_signalled",
    "C56_flush_is_exact",
    "C56_pending_is_exact",
    "C56_deletion_report_is_exact",
    "C56_custody_is_confirmed",
    "C56_records_have_different_names_refuted",
    "C56_flush_stays_in_its_buffer_refuted"
   ],
   "note": "Full for bundles whose block flags take one byte and ids below 2^64-1; two refutations (names of records, buffer of large signals)."
  },
  {
   "property": "C57",
   "status": "proved",
   "theorems": [
    "C57_time_parts_are_apart",
    "C57_vectors_are_exact",
    "C57_vectors_are_unique",
    "C57_no_reuse_with_single_targets",
    "C57_no_reuse_refuted",
    "C57_unique_across_restarts_refuted",
    "C57_limit_is_exact"
   ],
   "note": "two statements one might expect are refuted: targets of one bundle share key and vector; vectors can repeat after a restart"
  },
  {
   "property": "C58",
   "status": "proved",
   "theorems": [
    "C58_loading_is_exact",
    "C58_lookup_is_exact",
    "C58_found_policy_applies",
    "C58_exact_rule_is_followed",
    "C58_cache_is_transparent",
    "C58_matching_rule_is_followed_refuted",
    "C58_roles_are_independent_refuted",
    "C58_validation_is_right",
    "C58_loaded_policies_are_validated_refuted",
    "C58_validated_fields_are_never_set"
   ],
   "note": "three statements one might expect are refuted: hidden rules, roles that interfere, validation without effect"
  },
  {
   "property": "C59",
   "status": "proved",
   "theorems": [
    "C59_failure_actions_are_exact",
    "C59_confidentiality_step_is_exact",
    "C59_integrity_step_is_exact",
    "C59_process_is_safe",
    "C59_payload_is_decrypted",
    "C59_corrupted_payload_is_dropped",
    "C59_bystanders_change_nothing",
    "C59_stripped_bundles_are_dropped_refuted",
    "C59_encrypted_payload_is_not_delivered_refuted",
    "C59_decrypted_blocks_are_not_targets_refuted",
    "C59_operations_of_discarded_blocks_are_removed_refuted",
    "C59_marked_blocks_stay_marked_refuted"
   ],
   "note": "Exact per-block steps, exact failure actions, and end-to-end consequences for the payload; the cryptography is an arbitrary oracle. Five expectations refuted, among them stripped bundles being accepted and a verifier un-marking a block."
  },
  {
   "property": "C60",
   "status": "proved",
   "theorems": [
    "C60_sent_bundle_is_exact",
    "C60_never_undefined_when_rendered",
    "C60_nothing_else_prevents_sending",
    "C60_round_trip_is_accepted",
    "C60_absent_integrity_block_prevents_sending",
    "C60_named_primary_block_is_signed_refuted",
    "C60_incomplete_protection_is_not_sent_refuted",
    "C60_signature_is_over_what_is_sent_refuted",
    "C60_new_blocks_are_signed_safely_refuted",
    "C60_targets_are_sent_refuted",
    "C60_encrypted_once_refuted",
    "C60_all_named_blocks_are_encrypted_refuted"
   ],
   "note": "Overload used by ingress; ideal cryptography; the rest is stated in DESIGN.md. Seven expectations are refuted."
  },
  {
   "property": "C61",
   "status": "proved",
   "theorems": [
    "C61_header_is_exact",
    "C61_protocol_numbers",
    "C61_decoding_is_exact",
    "C61_writes_are_in_bounds",
    "C61_packets_are_delivered",
    "C61_idle_packets_are_skipped_refuted",
    "C61_invalid_headers_close_the_stream_refuted",
    "C61_no_write_out_of_bounds_refuted",
    "C61_maximum_size_is_respected_refuted"
   ],
   "note": "Header codec and reading of packets; sending side of the stream and connection handling are not modelled. Four expectations are refuted."
  },
  {
   "property": "C62",
   "status": "proved",
   "theorems": [
    "C62_data_units_are_as_specified",
    "C62_streams_are_unambiguous",
    "C62_only_what_arrived_is_delivered",
    "C62_everything_is_delivered",
    "C62_the_sink_comes_to_rest",
    "C62_buffers_are_within_bounds",
    "C62_any_buffer_size_works_refuted",
    "C62_forwarded_bundles_are_received_as_they_were_refuted"
   ],
   "note": "StcpBundleSink as two interleaving threads, sequentially consistent. Errors, closing and deletion are not modelled. Two refutations: configured buffer size 1; bundles of 2^32 bytes."
  },
  {
   "property": "C63",
   "status": "proved",
   "theorems": [
    "C63_datagrams_are_delivered_or_counted",
    "C63_dropped_only_when_full",
    "C63_everything_is_delivered",
    "C63_the_sink_comes_to_rest",
    "C63_buffers_are_as_large_as_configured",
    "C63_any_buffer_size_works_refuted",
    "C63_datagrams_are_delivered_whole_refuted"
   ],
   "note": "UdpBundleSink as two interleaving threads, sequentially consistent. Errors, shutting down and endpoints are not modelled. Two refutations: configured buffer size 1; datagrams longer than the configured size."
  },
  {
   "property": "C64",
   "status": "proved",
   "theorems": [
    "C64_packets_are_bundled_in_order",
    "C64_receiving_is_exact",
    "C64_stream_comes_out_as_it_went_in",
    "C64_payloads_are_read_in_bounds_refuted",
    "C64_every_packet_is_sent_refuted",
    "C64_only_version_two_is_used_refuted",
    "C64_any_number_per_bundle_works_refuted"
   ],
   "note": "Packets through BpSendStream and BpReceiveStream; queues that drop the oldest and threads are not modelled. Four refutations."
  },
  {
   "property": "C65",
   "status": "proved",
   "theorems": [
    "C65_sent_in_order_and_reported",
    "C65_everything_is_sent",
    "C65_reports_in_order",
    "C65_each_kind_in_order",
    "C65_timer_runs_while_waiting",
    "C65_accepted_when_room",
    "C65_closed_for_ever",
    "C65_link_stays_up_refuted",
    "C65_reported_was_sent_refuted",
    "C65_failed_is_not_reported_sent_refuted",
    "C65_every_bundle_is_reported_refuted"
   ],
   "note": "All interleavings of Forward, posted handlers, token timer and completions. Token decisions arbitrary, rate limit fixed per execution. Four refutations: with two kinds of messages under a rate limit the link is closed or the wrong user data is reported; after a failed send the next completion is taken for the failed one; failures are never reported."
  }
 ]
}