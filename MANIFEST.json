{
 "claims": [
  {
   "property": "C01",
   "status": "proved",
   "theorems": [
    "C01_tree_holds_exactly_the_inserted_nodes",
    "C01_tree_refines_sequence"
   ],
   "note": "any comparator satisfying good_comp (all comparators of the code do, C27), with and without allow_dups, any legal history"
  },
  {
   "property": "C02",
   "status": "proved",
   "theorems": [
    "C02_tree_balanced_and_shallow"
   ],
   "note": ""
  },
  {
   "property": "C03",
   "status": "proved",
   "theorems": [
    "C03_lookups_exact"
   ],
   "note": ""
  },
  {
   "property": "C04",
   "status": "proved",
   "theorems": [
    "C04_equal_key_refused_unchanged",
    "C04_equal_key_stored_behind_first",
    "C04_equal_keys_not_in_insertion_order"
   ],
   "note": "refusal, placement directly behind the first equal key; order of equal keys shown not to be insertion order"
  },
  {
   "property": "C05",
   "status": "proved",
   "theorems": [
    "C05_list_refines_sequences",
    "C05_other_lists_untouched"
   ],
   "note": "any number of heads; history-based refinement to sequences"
  },
  {
   "property": "C06",
   "status": "proved",
   "theorems": [
    "C06_time_encode_is_least_sufficient_code",
    "C06_time_roundtrip_never_shortens_and_is_tight",
    "C06_time_encode_monotone",
    "C06_time_decode_is_rfc_formula",
    "C06_time_decode_encode",
    "C06_time_code_roundtrip_refuted"
   ],
   "note": "Least-code, tightness, monotonicity and decoder formula for every 64-bit time. The side claim that re-encoding reproduces the code holds from code 72 up; below it is refuted (C06_time_code_roundtrip_refuted)."
  },
  {
   "property": "C07",
   "status": "partial",
   "theorems": [
    "C07_metric_encode_is_least_sufficient_code",
    "C07_metric_decode_is_rfc_formula",
    "C07_metric_code_roundtrip",
    "C07_metric_encode_rejects_exactly",
    "C07_metric_never_shortened_refuted"
   ],
   "note": "All metrics 1..METRIC_MAX proved. 'Never shortened' is refuted for the 254 accepted values between METRIC_MAX and METRIC_INFINITE."
  },
  {
   "property": "C08",
   "status": "proved",
   "theorems": [
    "C08_vector_lookup"
   ],
   "note": "All vectors, no out-of-range read."
  },
  {
   "property": "C09",
   "status": "partial",
   "theorems": [
    "C09_seqno_difference",
    "C09_seqno_is_larger_iff_ahead",
    "C09_seqno_is_smaller_iff_behind",
    "C09_seqno_trichotomy",
    "C09_seqno_antisymmetry_refuted"
   ],
   "note": "Proved except converse at distance 2^15, where both numbers are 'smaller' (refuted)."
  },
  {
   "property": "C10",
   "status": "proved",
   "theorems": [
    "C10_answers_equal_unbounded_reference",
    "C10_no_double_accept",
    "C10_one_sender_refinement"
   ],
   "note": "Refinement of the bitmap implementation to a reference with unbounded memory for every history."
  },
  {
   "property": "C11",
   "status": "partial",
   "theorems": [
    "C11_test_has_no_effect_refuted",
    "C11_test_answers_like_add_partial"
   ],
   "note": "Refuted as stated (the test counts too-old numbers and can reset the window); what remains true is C11_test_answers_like_add_partial."
  },
  {
   "property": "C12",
   "status": "partial",
   "theorems": [
    "C12_resync_after_too_old_burst",
    "C12_too_old_count_bounded",
    "C12_only_consecutive_refuted"
   ],
   "note": "Resynchronisation proved; 'consecutive' is refuted because CURRENT answers do not restart the count."
  },
  {
   "property": "C13",
   "status": "proved",
   "theorems": [
    "C13_timers_fire_on_time",
    "C13_walk_fires_exactly_the_due_timers",
    "C13_next_event_is_earliest",
    "C13_jitter_above_100_refuted"
   ],
   "note": "For jitter up to 100 percent and times below 2^56 ms; the finding for larger jitter is C13_jitter_above_100_refuted."
  },
  {
   "property": "C14",
   "status": "partial",
   "theorems": [
    "C14_stopped_timer_does_not_fire",
    "C14_one_shot_fires_once_per_start",
    "C14_active_in_callback_iff_periodic",
    "C14_rearmed_iff_periodic_and_not_stopped",
    "C14_effect_of_calls",
    "C14_usage_counts_active_timers",
    "C14_restart_from_own_callback_refuted"
   ],
   "note": "Everything proved except the restart clause: a periodic timer restarted from its own callback is re-armed with its period (refuted)."
  },
  {
   "property": "C15",
   "status": "proved",
   "theorems": [
    "C15_blocks_exclusive_and_zero",
    "C15_counters_and_no_leak",
    "C15_free_keeps_pool_small",
    "C15_size_zero_refuted"
   ],
   "note": "For objects of at least one byte; size zero refuted."
  },
  {
   "property": "C16",
   "status": "partial",
   "theorems": [
    "C16_extensions_disjoint",
    "C16_registration_outcome",
    "C16_registration_before_first_object",
    "C16_huge_extension_refuted"
   ],
   "note": "Proved while the total size stays below 2^64; refuted for sizes that wrap."
  },
  {
   "property": "C17",
   "status": "proved",
   "theorems": [
    "C17_bitmap_is_a_set",
    "C17_bitmap_history_from_any_map",
    "C17_bitmap_subset_is_inclusion"
   ],
   "note": ""
  },
  {
   "property": "C18",
   "status": "proved",
   "theorems": [
    "C18_bitstream_roundtrip",
    "C18_bitstream_write_exact",
    "C18_bitstream_read_exact",
    "C18_bitstream_no_access_outside",
    "C18_bitstream_read_no_access_outside"
   ],
   "note": "For buffers below 512 MiB (the writer keeps bit positions in uint32_t)."
  },
  {
   "property": "C19",
   "status": "partial",
   "theorems": [
    "C19_bulk_copy_advances_refuted"
   ],
   "note": "Refuted: bitstream_w_memcpy adds the length to a local variable instead of the stream."
  },
  {
   "property": "C20",
   "status": "partial",
   "theorems": [
    "C20_binary_roundtrip_partial",
    "C20_autodetect_rejects_other_lengths",
    "C20_memory_safety_condition",
    "C20_uuid_roundtrip_refuted",
    "C20_wrong_length_rejected_refuted"
   ],
   "note": "Proved for IPv4, IPv6, MAC48, EUI64. Refuted for UUID (maximum prefix length 0, so conversion back fails) and for 'unsupported lengths are rejected' with an explicit family."
  },
  {
   "property": "C21",
   "status": "proved",
   "theorems": [
    "C21_subnet_test_is_prefix_equality",
    "C21_subnet_test_is_containment",
    "C21_binary_subnet_test",
    "C21_subnet_test_refl_trans"
   ],
   "note": ""
  },
  {
   "property": "C22",
   "status": "proved",
   "theorems": [
    "C22_truncate_keeps_prefix_bits",
    "C22_truncate_idempotent",
    "C22_truncate_equal_iff_same_subnet"
   ],
   "note": ""
  },
  {
   "property": "C23",
   "status": "partial",
   "theorems": [
    "C23_create_host_bits_partial",
    "C23_create_host_in_network",
    "C23_create_host_fails_only_without_family",
    "C23_uuid_network_refuted"
   ],
   "note": "Proved bit by bit for IPv4, IPv6, MAC48, EUI64. Refuted for UUID networks."
  },
  {
   "property": "C24",
   "status": "partial",
   "theorems": [
    "C24_create_prefix_correct_up_to_8_partial",
    "C24_create_prefix_refuted",
    "C24_subnetmask_one_short_partial",
    "C24_subnetmask_parser_refuted",
    "C24_subnetmask_zero_refuted",
    "C24_subnetmask_rejects_non_contiguous",
    "C24_create_prefix_non_contiguous_refuted",
    "C24_text_netmask_refuted",
    "C24_text_prefix_overflow_refuted"
   ],
   "note": "Refuted for both functions; exact behaviour proved (netaddr_create_prefix right up to /8 only, mask text one too short)."
  },
  {
   "property": "C25",
   "status": "proved",
   "theorems": [
    "C25_netaddr_cmp_total_order",
    "C25_comparators_are_orders",
    "C25_comparators_equality"
   ],
   "note": ""
  },
  {
   "property": "C26",
   "status": "partial",
   "theorems": [
    "C26_mac48_text_roundtrip",
    "C26_eui64_text_roundtrip",
    "C26_uuid_text_roundtrip_partial",
    "C26_uuid_prefix_text_refuted",
    "C26_ipv4_text_roundtrip",
    "C26_ipv6_text_roundtrip",
    "C26_inet_assumptions_satisfiable"
   ],
   "note": "MAC48 and EUI64 with every prefix length, IPv4/IPv6 relative to inet_ntop/inet_pton, UUID when the prefix length is printed or 128. Refuted for UUID prefixes otherwise."
  },
  {
   "property": "C27",
   "status": "proved",
   "theorems": [
    "C27_acl_decision",
    "C27_acl_parse",
    "C27_acl_parse_error",
    "C27_acl_parse_memory_safe"
   ],
   "note": ""
  },
  {
   "property": "C28",
   "status": "proved",
   "theorems": [
    "C28_strscpy",
    "C28_strscat",
    "C28_nothing_written"
   ],
   "note": ""
  },
  {
   "property": "C29",
   "status": "proved",
   "theorems": [
    "C29_round_trip",
    "C29_only_hex_accepted"
   ],
   "note": ""
  },
  {
   "property": "C30",
   "status": "partial",
   "theorems": [
    "C30_array_is_sequence",
    "C30_next_safe_refuted"
   ],
   "note": "All operations proved for every history and every pattern of failing allocations, except strarray_get_next_safe, which is refuted (does not return NULL behind the last string)."
  },
  {
   "property": "C31",
   "status": "proved",
   "theorems": [
    "C31_words_exist_unique",
    "C31_cpynextword",
    "C31_skipnextword",
    "C31_countwords",
    "C31_hasnextword",
    "C31_trim",
    "C31_cpynextword_length_zero_refuted"
   ],
   "note": "For buffers of at least one byte; length zero refuted."
  },
  {
   "property": "C32",
   "status": "proved",
   "theorems": [
    "C32_contents",
    "C32_plain_calls_legal",
    "C32_appendf_refuted",
    "C32_appendf_after_free_refuted",
    "C32_setlen_refuted"
   ],
   "note": "All call sequences; a failed append leaves the content. The calls that are not covered (abuf_appendf without room after abuf_pull or abuf_free, abuf_setlen beyond the allocation) are refuted separately: they write outside the buffer."
  },
  {
   "property": "C33",
   "status": "partial",
   "theorems": [
    "C33_terminated_partial",
    "C33_addition_terminates",
    "C33_pull_refuted"
   ],
   "note": "Holds until abuf_pull is called and after every successful addition; refuted for abuf_pull, which leaves the text unterminated."
  },
  {
   "property": "C34",
   "status": "proved",
   "theorems": [
    "C34_meaning_unique",
    "C34_substitution",
    "C34_default_format"
   ],
   "note": "Substitution is given by an independent relation and is unique."
  },
  {
   "property": "C35",
   "status": "partial",
   "theorems": [
    "C35_overrun_refuted",
    "C35_default_overrun_refuted",
    "C35_storage_partial",
    "C35_default_storage_partial"
   ],
   "note": "Refuted for formats with more than 64 keys (storage overrun); proved that exactly the formats with at most 64 keys are stored."
  },
  {
   "property": "C36",
   "status": "proved",
   "theorems": [
    "C36_reads_back",
    "C36_key_refuted",
    "C36_templates_refuted"
   ],
   "note": "All nested structures, keys without characters that need an escape. json_print_templates without any value and keys with quotation marks are refuted separately."
  },
  {
   "property": "C37",
   "status": "partial",
   "theorems": [
    "C37_whole_numbers",
    "C37_text_value_partial",
    "C37_accepted_texts",
    "C37_terminates_partial",
    "C37_printed_text",
    "C37_roundtrip_partial",
    "C37_signed_roundtrip_partial",
    "C37_clock_interval_roundtrip",
    "C37_hang_refuted",
    "C37_overflow_refuted",
    "C37_signed_overflow_refuted",
    "C37_digits_refuted",
    "C37_small_prefix_refuted",
    "C37_sign_refuted",
    "C37_scaling_zero_refuted"
   ],
   "note": "Whole numbers, accepted texts and printed texts in full. Round trip and value of fractions hold if no product leaves 64 bits, there are not more than 3 fractional digits and no small prefix; refuted otherwise (silent overflow, lost digits, prefixes that are printed but not accepted, endless loop for 64 fractional digits, division by zero for scaling 0)."
  },
  {
   "property": "C38",
   "status": "partial",
   "theorems": [
    "C38_reader_safe_partial",
    "C38_callbacks_see_packet_bytes",
    "C38_multivalue_refuted",
    "C38_zerotail_refuted",
    "C38_headtail_refuted",
    "C38_single_prefix_refuted"
   ],
   "note": "Proved: no undefined operation except three known ones, and everything shown to callbacks lies inside of the packet. Each of the three (division by zero, overflow of a 16 byte address, read of one byte behind the packet) is really reachable: four refutations."
  },
  {
   "property": "C39",
   "status": "proved",
   "theorems": [
    "C39_parsing_terminates",
    "C39_messages_partition_the_packet"
   ],
   "note": "Termination for every packet; the messages partition every accepted packet that no callback has dropped."
  },
  {
   "property": "C40",
   "status": "partial",
   "theorems": [
    "C40_tlvs_stay_inside_message_partial",
    "C40_tlvblock_overrun_refuted"
   ],
   "note": "Proved: inside of the message. The TLV block length itself is not respected: refuted."
  },
  {
   "property": "C41",
   "status": "proved",
   "theorems": [
    "C41_block_is_what_was_accepted",
    "C41_packet_is_what_was_accepted",
    "C41_reader_agrees"
   ],
   "note": "TLV writer and packet generator, composed with the reader theorem C58; message TLV blocks: C41_block_is_what_was_accepted."
  },
  {
   "property": "C42",
   "status": "partial",
   "theorems": [
    "C42_tlv_writer_stays_inside",
    "C42_call_outcome",
    "C42_huge_length_refuted"
   ],
   "note": "Proved for lengths below 2^63; refuted for lengths near the end of size_t (the size arithmetic wraps)."
  },
  {
   "property": "C43",
   "status": "partial",
   "theorems": [
    "C43_constraint_as_computed",
    "C43_mandatory_constraint_partial",
    "C43_violation_always_reported",
    "C43_mandatory_refuted"
   ],
   "note": "The exact condition computed by the code is proved; it implies the documented one, but is stronger for address TLVs of a mandatory type that exist for some addresses only (refuted)."
  },
  {
   "property": "C44",
   "status": "partial",
   "theorems": [
    "C44_not_forwarded_below_hop_limit_two",
    "C44_forwarded_copy",
    "C44_hop_count_refuted",
    "C44_large_message_refuted"
   ],
   "note": "Proved: reader half (when a message is given to the forwarder), the forwarded copy, and that it is sent once (C63). Refuted: a hop count of 255 wraps to 0; a message of more than 1225 bytes overruns the static message buffer."
  },
  {
   "property": "C45",
   "status": "partial",
   "theorems": [
    "C45_start_end_callbacks",
    "C45_dropped_flag_and_forwarding",
    "C45_registered_consumers_are_sorted",
    "C45_groups_are_balanced",
    "C45_error_answer_refuted"
   ],
   "note": "Pairing and order for all answers; dropped flag and completeness for non-negative answers; refuted for negative (error) answers."
  },
  {
   "property": "C46",
   "status": "partial",
   "theorems": [
    "C46_nothing_lost",
    "C46_terminates_partial",
    "C46_mandatory_partial",
    "C46_terminates_refuted",
    "C46_mandatory_refuted"
   ],
   "note": "Proved: when the generation ends, it has failed before any message or every non-mandatory address is in exactly one message, in order; it ends if every address fits into a message together with the mandatory ones, and mandatory addresses at the start of the list are then in all messages. Refuted: termination for addresses that do not fit (endless empty messages), mandatory addresses behind others."
  },
  {
   "property": "C47",
   "status": "partial",
   "theorems": [
    "C47_addresses_partial",
    "C47_received_partial",
    "C47_prefixes_refuted",
    "C47_many_refuted",
    "C47_mandatory_refuted"
   ],
   "note": "Proved for at most 255 addresses with different bytes and one tlvtype object per TLV type: the blocks of the first message, and of all messages without mandatory addresses, encode (by the independent wire format) the addresses and prefix lengths in order, and the reader tells every consumer about them. Refuted: the same address with two prefix lengths (read behind the table, NULL pointer), 256 addresses (number 0), later messages with mandatory addresses (stale block boundaries)."
  },
  {
   "property": "C48",
   "status": "partial",
   "theorems": [
    "C48_flooding_mprs_cover",
    "C48_two_links_refuted",
    "C48_routing_mprs_cover_partial",
    "C48_routing_two_links_refuted"
   ],
   "note": "Flooding MPRs: proved for every database without two links of one neighbor on an interface; with two such links refuted (the graph keeps the first link only). Routing MPRs: proved for neighbors whose links agree on the two-hop metrics and whose willingness is not 15; refuted otherwise."
  },
  {
   "property": "C49",
   "status": "partial",
   "theorems": [
    "C49_flooding_no_fault",
    "C49_routing_no_fault_partial",
    "C49_routing_always_crashes",
    "C49_routing_always_refuted",
    "C49_routing_metric_refuted"
   ],
   "note": "Flooding MPRs: proved (no fault, terminates, debug validation passes). Routing MPRs: every database with a neighbor of willingness 15 dereferences a NULL link (proved and refuted), and an assertion fails if the first of several links reports an infinite metric; proved for the remaining databases."
  },
  {
   "property": "C50",
   "status": "partial",
   "theorems": [
    "C50_terminates",
    "C50_shortest_routes_partial",
    "C50_unreachable",
    "C50_small_networks",
    "C50_source_specific_refuted",
    "C50_originator_refuted",
    "C50_long_path_refuted"
   ],
   "note": "Proved for all topologies whose nodes are reachable within 255 hops (shown for all networks of up to 255 nodes): termination without faults, every route describes a cheapest way, every admissible destination has a route, unreachable ones have none. Excluded and refuted with witnesses: source specific destinations while only some nodes are source specific and several of them announce the prefix; 32-bit overflow on longer paths; the stored originator of multiply announced prefixes."
  },
  {
   "property": "C51",
   "status": "partial",
   "theorems": [
    "C51_filter_refuted",
    "C51_filters_modify_partial"
   ],
   "note": "Refuted: the verdict of a filter has no effect. Proved: all filters are applied in order to the parameters of every route."
  },
  {
   "property": "C52",
   "status": "partial",
   "theorems": [
    "C52_kernel_in_sync_partial",
    "C52_update_installs_partial",
    "C52_flapping_route_refuted",
    "C52_changed_route_refuted",
    "C52_refused_change_refuted",
    "C52_timeout_refuted"
   ],
   "note": "Proved for executions in which the kernel executes requests and all requests are answered (in any order) before the next calculation. Refuted without this: flapping routes, routes changed while a request is outstanding, refused changes, timeouts."
  },
  {
   "property": "C53",
   "status": "partial",
   "theorems": [
    "C53_map_partial",
    "C53_map",
    "C53_lookup",
    "C53_copy",
    "C53_duplicate",
    "C53_lost_refuted",
    "C53_add_order_refuted"
   ],
   "note": "Proved for every history of operations over any names and values, with a fault-free result, including operations which fail for lack of memory, lookups with fallback and schema default, and copies; missing is replacing a value without memory for the new one, refuted: the old value is lost and a later removal reads through NULL. Also refuted: cfg_db_add_entry appends (it puts values in front)."
  },
  {
   "property": "C54",
   "status": "proved",
   "theorems": [
    "C54_reader_memory_balanced"
   ],
   "note": ""
  },
  {
   "property": "C55",
   "status": "partial",
   "theorems": [
    "C55_every_tlv_once_partial",
    "C55_tlv_callback_twice_refuted"
   ],
   "note": "Proved for consumers without entries, refuted for consumers with entries."
  },
  {
   "property": "C56",
   "status": "proved",
   "theorems": [
    "C56_strarray_cmp"
   ],
   "note": ""
  },
  {
   "property": "C57",
   "status": "partial",
   "theorems": [
    "C57_startswith",
    "C57_endswith_partial",
    "C57_endswith_refuted"
   ],
   "note": "str_endswith is refuted for a string that equals the pattern."
  },
  {
   "property": "C58",
   "status": "proved",
   "theorems": [
    "C58_packets_understood",
    "C58_nothing_missed"
   ],
   "note": "The wire format is an independent abstract syntax with an encoder (WireSpec.v). No TLV is required to be in a canonical form."
  },
  {
   "property": "C59",
   "status": "proved",
   "theorems": [
    "C59_dropped_address_hidden"
   ],
   "note": "For arbitrary packet bytes."
  },
  {
   "property": "C60",
   "status": "proved",
   "theorems": [
    "C60_request_order"
   ],
   "note": "For all executions."
  },
  {
   "property": "C61",
   "status": "partial",
   "theorems": [
    "C61_shutdown_removes_routes_partial",
    "C61_shutdown_refuted"
   ],
   "note": "Proved if no request is outstanding at the shutdown; refuted otherwise."
  },
  {
   "property": "C62",
   "status": "partial",
   "theorems": [
    "C62_old_routes_removed_partial",
    "C62_parameter_change_refuted"
   ],
   "note": "Old routes are removed; refuted: they are not set again by the triggered update."
  },
  {
   "property": "C63",
   "status": "partial",
   "theorems": [
    "C63_sent_once_in_order",
    "C63_reserved_space_refuted"
   ],
   "note": "Proved without reserved packet space for generated messages and up to 1225 bytes for forwarded ones; refuted with reserved space (allocate_packettlv or a packet post-processor): generated messages overrun the packet buffer."
  },
  {
   "property": "C64",
   "status": "partial",
   "theorems": [
    "C64_tlvs_partial",
    "C64_types_refuted"
   ],
   "note": "Proved under the conditions of C47: every address has exactly its TLVs with their values, on the wire and for the consumers of the reader. Refuted for two tlvtype objects of the same type."
  },
  {
   "property": "C65",
   "status": "partial",
   "theorems": [
    "C65_round_trip_partial",
    "C65_single_values",
    "C65_order_refuted",
    "C65_bracket_refuted",
    "C65_long_refuted",
    "C65_injection_refuted"
   ],
   "note": "Proved for every history of operations whose types and keys are identifiers and whose names and values have no surrounding spaces or line breaks: same sections, same entries, same values in reversed order (single values exactly). Refuted: the order of several values, names with a bracket, names of more than 127 characters, values with a line break (become configuration of their own)."
  },
  {
   "property": "C66",
   "status": "partial",
   "theorems": [
    "C66_meaning",
    "C66_parse_partial",
    "C66_no_value_refuted",
    "C66_beyond_refuted"
   ],
   "note": "Proved for every file, every memory behind it and every reachable database, except for files with a key without value in a section, for which it is refuted (the next line, even a comment, is taken as the value and read again; at the end of a full buffer the parser reads beyond it)."
  },
  {
   "property": "C67",
   "status": "partial",
   "theorems": [
    "C67_symmetric_counter_partial",
    "C67_merged_links_refuted",
    "C67_interface_down_refuted"
   ],
   "note": "Proved for every history without interface loss in which HELLOs are well-formed, merge neighbors only on new links and do not merge links; refuted for HELLOs that merge links and for interfaces that lose their addresses."
  },
  {
   "property": "C68",
   "status": "partial",
   "theorems": [
    "C68_no_dangling_pointer_partial",
    "C68_merged_neighbors_refuted",
    "C68_stale_current_refuted",
    "C68_removed_interface_refuted"
   ],
   "note": "Proved for every history in which interfaces stay, HELLOs merge neighbors only on new (or merged) links, and HELLOs without valid message TLVs meet a living link and neighbor of the HELLO before; refuted in each of the other cases."
  },
  {
   "property": "C69",
   "status": "partial",
   "theorems": [
    "C69_hello_partial",
    "C69_heard_symmetric_partial",
    "C69_unlisted_refuted",
    "C69_source_address_refuted",
    "C69_split_neighbor_refuted"
   ],
   "note": "Proved for HELLOs that list addresses of at most one known neighbor and link (of the same originator) and at least one interface address, for link, neighbor, addresses, times, status and two-hop addresses; refuted: unlisted addresses when the HELLO makes the link symmetric, HELLOs known only by their source address, neighbors whose address was lost in between."
  },
  {
   "property": "C70",
   "status": "partial",
   "theorems": [
    "C70_inactive_interface_partial",
    "C70_no_vtime_refuted",
    "C70_malformed_address_refuted"
   ],
   "note": "Proved for HELLOs on inactive or unknown interfaces; refuted for HELLOs without VTIME and for HELLOs with malformed address TLVs."
  },
  {
   "property": "C71",
   "status": "partial",
   "theorems": [
    "C71_consistent_partial"
   ],
   "note": "Proved for the histories of C68; in the other histories the code uses freed objects."
  },
  {
   "property": "C72",
   "status": "partial",
   "theorems": [
    "C72_not_symmetric_anymore_partial",
    "C72_heard_link_refuted"
   ],
   "note": "Proved: whenever an event other than a HELLO ends the symmetric status of a link, its two-hop addresses are gone; refuted: a HELLO adds two-hop addresses to a link that is not symmetric."
  },
  {
   "property": "C73",
   "status": "partial",
   "theorems": [
    "C73_hello_written",
    "C73_hello_read",
    "C73_willingness_partial",
    "C73_order_refuted",
    "C73_single_refuted"
   ],
   "note": "Proved for all nodes whose domain lists agree (one is a prefix of the other), memory safety for every HELLO; refuted for domains in another order and for senders with one domain that is not the first of the receiver (the content of the MPR types TLV is ignored)."
  },
  {
   "property": "C74",
   "status": "partial",
   "theorems": [
    "C74_mpr_selection_partial",
    "C74_order_refuted",
    "C74_no_tlv_stale_refuted",
    "C74_removed_stale_refuted"
   ],
   "note": "Proved for all nodes whose domain lists agree; refuted for domains in another order, for HELLOs without MPR TLV and for removed neighbors (nhdp_domain_node_is_mpr stays true)."
  },
  {
   "property": "C75",
   "status": "partial",
   "theorems": [
    "C75_neighbor_metric",
    "C75_changed_partial",
    "C75_twohop_change",
    "C75_lost_refuted",
    "C75_incoming_refuted"
   ],
   "note": "Metrics and best link proved in full; being told proved when the neighbor has a usable link before and after; refuted when the last symmetric link is lost or comes back, and for incoming metrics."
  },
  {
   "property": "C76",
   "status": "partial",
   "theorems": [
    "C76_link_metric_partial",
    "C76_metrics_written",
    "C76_twohop_metric_partial",
    "C76_hopcount_refuted"
   ],
   "note": "Proved for every metric with default handling, any domain lists and any order of TLVs; refuted for the default (hopcount) metric, whose outgoing link metric becomes infinite with the first HELLO."
  },
  {
   "property": "C77",
   "status": "partial",
   "theorems": [
    "C77_refcount",
    "C77_registered_partial",
    "C77_two_domains_refuted",
    "C77_flooding_refuted"
   ],
   "note": "Reference counts, switching on and off and freedom from faults proved for every history; that no domain keeps a removed algorithm is proved when at most one domain, not the flooding domain, uses it, and refuted otherwise."
  },
  {
   "property": "C78",
   "status": "partial",
   "theorems": [
    "C78_configure_partial",
    "C78_no_restart_partial",
    "C78_any_restart_refuted",
    "C78_long_name_refuted",
    "C78_late_refuted",
    "C78_add_changes_nothing"
   ],
   "note": "Proved for names of at most 15 characters other than the special ones, and for repeated configuration of names other than '*'; refuted for '*' configured again, for longer names and for algorithms registered after configuration (mpr_add offers them, but nothing happens)."
  },
  {
   "property": "C79",
   "status": "partial",
   "theorems": [
    "C79_memory_safe_partial",
    "C79_own_originator_refuted",
    "C79_dropped_message_refuted",
    "C79_wrong_originator_refuted",
    "C79_prefix_originator_refuted"
   ],
   "note": "Proved for every history without TCs that announce their own originator, without TCs lacking a mandatory TLV right after a dropped TC, and without routes to prefixes with several attachments; each of the three is refuted with a history that uses a freed object (or the wrong router)."
  },
  {
   "property": "C80",
   "status": "partial",
   "theorems": [
    "C80_consistent_partial",
    "C80_tidy_partial",
    "C80_neighbors_partial",
    "C80_validity_zero_refuted",
    "C80_old_originator_refuted"
   ],
   "note": "Consistency proved for every history of C79; 'nodes are removed in time' proved with validity times above 0, 'direct neighbors' when neighbors keep their originator; both refuted otherwise."
  },
  {
   "property": "C81",
   "status": "partial",
   "theorems": [
    "C81_up_to_date_tc_partial",
    "C81_one_cost_partial",
    "C81_incomplete_removes_refuted"
   ],
   "note": "Proved for every reachable database and up-to-date TC (complete or not); refuted: an incomplete TC removes what it does not list."
  },
  {
   "property": "C82",
   "status": "partial",
   "theorems": [
    "C82_outdated_tc_partial",
    "C82_unusable_tc",
    "C82_validity_refuted",
    "C82_incomplete_refuted",
    "C82_first_incomplete_refuted"
   ],
   "note": "Unusable TCs proved in full; outdated TCs proved to change nothing but the node of the originator and its validity time; refuted: the validity time is refreshed, incomplete TCs with the same ANSN and a first incomplete TC are ignored."
  },
  {
   "property": "C83",
   "status": "partial",
   "theorems": [
    "C83_told_partial",
    "C83_lost_metric_refuted",
    "C83_prefix_refuted"
   ],
   "note": "Proved for neighbors with a cost and for removed neighbors and prefixes; refuted for costs that become infinite, for new prefixes and for changed costs of prefixes."
  },
  {
   "property": "C84",
   "status": "partial",
   "theorems": [
    "C84_timeout_partial"
   ],
   "note": "Proved for every history of C79 with validity times above 0."
  },
  {
   "property": "C85",
   "status": "partial",
   "theorems": [
    "C85_registry",
    "C85_safe_partial",
    "C85_udp_partial",
    "C85_allowed_partial",
    "C85_extension_overflow_refuted",
    "C85_deactivate_null_refuted"
   ],
   "note": "Proved for callbacks that update the extensions only from lists with at most four known ids and all extensions without deactivation callback; refuted otherwise (overflow of the extension array, call of NULL)."
  },
  {
   "property": "C86",
   "status": "proved",
   "theorems": [
    "C86_parse"
   ],
   "note": "For every session that session_add and the input can reach (sane, which is kept by every step, see C85/C87)."
  },
  {
   "property": "C87",
   "status": "partial",
   "theorems": [
    "C87_calls_partial",
    "C87_stream_partial",
    "C87_delivered",
    "C87_rejected",
    "C87_unexpected",
    "C87_unknown_signal_refuted",
    "C87_unsupported_tlv_refuted",
    "C87_partial_processing_refuted",
    "C87_mtu_refuted"
   ],
   "note": "Calls only for complete, expected signals with allowed and mandatory TLVs; delivery, rejection of malformed bodies and of unexpected signals proved; refuted: unknown signals, TLVs the signal does not support, partial processing, MTU TLV."
  },
  {
   "property": "C88",
   "status": "proved",
   "theorems": [
    "C88_chunks"
   ],
   "note": "For every session that is not to be killed already."
  },
  {
   "property": "C89",
   "status": "partial",
   "theorems": [
    "C89_write",
    "C89_heartbeat",
    "C89_uint64",
    "C89_lid_length",
    "C89_extensions",
    "C89_status",
    "C89_peer_type",
    "C89_int64_refuted",
    "C89_too_long_refuted"
   ],
   "note": "Signals, TLVs, heartbeat, uint64, link id length, extensions, status and peer type proved; refuted: int64 and signals that are too long."
  },
  {
   "property": "C90",
   "status": "partial",
   "theorems": [
    "C90_status",
    "C90_peer_type_partial",
    "C90_small_buffer_refuted",
    "C90_peer_type_cut_refuted",
    "C90_no_text_refuted"
   ],
   "note": "Status proved; peer type proved for buffers of two or more bytes and nonempty texts with one character less; refuted: smaller buffers, lost character, no text."
  },
  {
   "property": "C91",
   "status": "partial",
   "theorems": [
    "C91_owner",
    "C91_owner_later",
    "C91_decided_unique",
    "C91_changed_partial",
    "C91_changed_refuted",
    "C91_default_metadata_refuted",
    "C91_reset"
   ],
   "note": "Owner and value proved for all write sequences; change report proved for objects with a value; refuted: first value 0 is not reported, a reset object has no default metadata any more."
  },
  {
   "property": "C92",
   "status": "partial",
   "theorems": [
    "C92_store_partial",
    "C92_read_partial",
    "C92_round_trip",
    "C92_negative_read_refuted",
    "C92_negative_store_refuted",
    "C92_boolean_scale_refuted",
    "C92_boolean",
    "C92_boolean_without_value_refuted",
    "C92_compare"
   ],
   "note": "Proved for numbers that are not negative (and for all numbers where no rounding is needed) and booleans; refuted: negative numbers that are divided, scales with boolean data, booleans without value."
  },
  {
   "property": "C93",
   "status": "partial",
   "theorems": [
    "C93_tlv_round_trip_partial",
    "C93_tlv_boolean",
    "C93_tlv_no_value",
    "C93_tlv_truncates_refuted",
    "C93_tlv_safe"
   ],
   "note": "Proved for values that fit the TLV, booleans, missing values and safety of the receiver; refuted: values that do not fit are truncated."
  },
  {
   "property": "C94",
   "status": "partial",
   "theorems": [
    "C94_answers",
    "C94_unique_partial",
    "C94_unique_refuted"
   ],
   "note": "Proved up to 2^24 requests for the address; refuted: the 2^24-th next request repeats a key."
  },
  {
   "property": "C95",
   "status": "partial",
   "theorems": [
    "C95_round_trip",
    "C95_read_partial",
    "C95_overflow_refuted"
   ],
   "note": "Round trip proved for all keys; reading proved safe except for exactly 62 characters before the comma, where it is refuted."
  },
  {
   "property": "C96",
   "status": "partial",
   "theorems": [
    "C96_listener_partial",
    "C96_trees_partial",
    "C96_parents",
    "C96_shutdown_partial",
    "C96_long_name_refuted"
   ],
   "note": "Proved for all call sequences with interface names of at most 15 characters; refuted for longer names."
  },
  {
   "property": "C97",
   "status": "partial",
   "theorems": [
    "C97_values",
    "C97_destinations",
    "C97_addresses",
    "C97_neighbors",
    "C97_networks",
    "C97_peers_partial",
    "C97_listener",
    "C97_peer_stays_refuted",
    "C97_peer_lost_refuted",
    "C97_overwritten_refuted",
    "C97_destination_owner_refuted",
    "C97_relabel"
   ],
   "note": "Values, destinations, neighbor addresses, neighbors, networks, events and relabeling proved; refuted: peer addresses of the origin stay, peer addresses of others are lost with the network, overwritten values of others are lost, a destination added again keeps its first owner."
  },
  {
   "property": "C98",
   "status": "proved",
   "theorems": [
    "C98_query",
    "C98_get_data",
    "C98_commit"
   ],
   "note": "Query, defaults and commit proved for all databases."
  },
  {
   "property": "C99",
   "status": "partial",
   "theorems": [
    "C99_match_partial",
    "C99_longest_refuted"
   ],
   "note": "Found if and only if some prefix matches; refuted: the shortest instead of the longest prefix is chosen."
  },
  {
   "property": "C100",
   "status": "partial",
   "theorems": [
    "C100_validate_partial",
    "C100_sound",
    "C100_mandatory_refuted"
   ],
   "note": "Everything proved but mandatory entries of unnamed sections; refuted: their absence is not reported."
  },
  {
   "property": "C101",
   "status": "partial",
   "theorems": [
    "C101_cleanup",
    "C101_keeps_partial",
    "C101_list_refuted",
    "C101_unknown_refuted",
    "C101_freed_refuted"
   ],
   "note": "Proved for schemas in which no entry is checked by two plugins; refuted: good list elements after a bad one are removed, unknown entries stay, an entry checked twice is used after it was freed."
  },
  {
   "property": "C102",
   "status": "partial",
   "theorems": [
    "C102_follows_partial",
    "C102_startup_partial",
    "C102_everyone",
    "C102_calls_partial",
    "C102_sdiff",
    "C102_default_refuted",
    "C102_default_gone_refuted",
    "C102_twice_refuted",
    "C102_startup_refuted"
   ],
   "note": "Proved for all sections but those with a default name whose values come from a changed unnamed section; refuted: these changes are not told, a default section that disappears is reported as never there, one written down is reported twice, a section type without section is skipped at startup."
  },
  {
   "property": "C103",
   "status": "partial",
   "theorems": [
    "C103_accepted",
    "C103_number_partial",
    "C103_wrap_refuted",
    "C103_size_refuted"
   ],
   "note": "Proved for values below 2^63 and number texts that the parser reads exactly (C37); refuted: larger ones wrap, limits beyond the size of the target are only reported."
  },
  {
   "property": "C104",
   "status": "partial",
   "theorems": [
    "C104_validate_partial",
    "C104_tobin_partial",
    "C104_words_refuted",
    "C104_default_refuted",
    "C104_long_refuted"
   ],
   "note": "Proved for at most as many words as entries and words up to 255 characters; refuted: more words read behind the entries, the default of the last entry is not used, long words are split."
  },
  {
   "property": "C105",
   "status": "partial",
   "theorems": [
    "C105_string_partial",
    "C105_string_refuted",
    "C105_choice",
    "C105_bool",
    "C105_bitmap_partial",
    "C105_bitmap_refuted",
    "C105_acl"
   ],
   "note": "Choices, booleans and access lists proved; texts proved below the size of the array; bit sets proved for numbers, all and none; refuted: texts of maximal length are cut, empty texts, large numbers and blanks before minus are accepted as bits."
  },
  {
   "property": "C106",
   "status": "partial",
   "theorems": [
    "C106_no_fault",
    "C106_session_no_fault",
    "C106_request",
    "C106_rejected",
    "C106_field_case_refuted"
   ],
   "note": "Proved for all requests with exact field names and safety for all inputs; refuted: field names in other case are not recognised."
  },
  {
   "property": "C107",
   "status": "partial",
   "theorems": [
    "C107_get",
    "C107_get_parameters",
    "C107_post_partial",
    "C107_wrong_escape_refuted",
    "C107_signed_escape_refuted",
    "C107_encoded_separator_refuted",
    "C107_post_encoded_refuted"
   ],
   "note": "Proved for GET requests with well-formed URIs and for complete POST requests with plain parameters; refuted: wrong escapes, encoded separators, POST parameters that are encoded."
  },
  {
   "property": "C108",
   "status": "partial",
   "theorems": [
    "C108_responsible",
    "C108_directory_partial",
    "C108_nested_refuted",
    "C108_file_partial",
    "C108_traversal_refuted",
    "C108_traversal_zero_refuted",
    "C108_handlers_safe",
    "C108_telnet"
   ],
   "note": "Responsible handler, telnet commands and safety proved; directories proved if no other site is in them; files proved for paths that begin with the directory and its slash; refuted: nested sites, directory traversal by a question mark or a zero."
  },
  {
   "property": "C109",
   "status": "partial",
   "theorems": [
    "C109_header",
    "C109_waits",
    "C109_pieces_partial",
    "C109_post_refuted",
    "C109_truncated_refuted",
    "C109_line_feed_refuted"
   ],
   "note": "Proved for everything but POST requests; refuted: POST bodies that come later, incomplete ones, blank lines in bodies."
  },
  {
   "property": "C110",
   "status": "partial",
   "theorems": [
    "C110_access_partial",
    "C110_refused",
    "C110_static_refuted"
   ],
   "note": "Proved for handlers; refuted: static content is not protected."
  },
  {
   "property": "C111",
   "status": "partial",
   "theorems": [
    "C111_message_roundtrip_partial",
    "C111_packet_roundtrip_partial",
    "C111_two_signatures_refuted"
   ],
   "note": "Proved for one signature (messages and packets, all signing functions); refuted: two signatures on one message."
  },
  {
   "property": "C112",
   "status": "partial",
   "theorems": [
    "C112_accepted_message_partial",
    "C112_accepted_packet_partial",
    "C112_right_length",
    "C112_wrong_length_refuted",
    "C112_no_tlvblock_refuted",
    "C112_reader_skips"
   ],
   "note": "Proved up to signing functions that fail or give ICVs of another length; refuted: ICVs of another length are taken as correct, packets without TLV block are not checked."
  },
  {
   "property": "C113",
   "status": "partial",
   "theorems": [
    "C113_check_message_partial",
    "C113_hang_refuted",
    "C113_read_refuted",
    "C113_overrun_refuted",
    "C113_sender_room_refuted"
   ],
   "note": "Proved for well-formed messages that leave room in the static buffer; refuted: endless loop, reads behind the packet, overrun of the static buffer, overrun of the packet buffer of the sender."
  },
  {
   "property": "C114",
   "status": "partial",
   "theorems": [
    "C114_keys_partial",
    "C114_two_keys_refuted"
   ],
   "note": "Proved if the other keys use other functions and are optional; refuted: two keys for the same functions."
  },
  {
   "property": "C115",
   "status": "partial",
   "theorems": [
    "C115_active_partial",
    "C115_crypt_late_refuted",
    "C115_confusion_refuted",
    "C115_identity_refuted"
   ],
   "note": "Proved if crypto functions are registered while there is no signature; refuted: crypto functions registered later, crypto taken for hash, identity function."
  },
  {
   "property": "C116",
   "status": "partial",
   "theorems": [
    "C116_rising_partial",
    "C116_no_replay_partial",
    "C116_fresh_accepted_partial",
    "C116_own_stamps_partial",
    "C116_forgotten_refuted",
    "C116_reboot_refuted",
    "C116_own_stamps_refuted",
    "C116_wrap_refuted"
   ],
   "note": "Proved while the neighbor is remembered and not challenged; refuted: replay after the neighbor was forgotten or has answered a challenge, windows that reach over 2^32."
  },
  {
   "property": "C117",
   "status": "partial",
   "theorems": [
    "C117_answered_once_partial",
    "C117_handshake_partial",
    "C117_answer_lost_refuted"
   ],
   "note": "Proved for less than 2^32 packets and for the next packet after a challenge; refuted: the answer is lost if another packet arrives first."
  },
  {
   "property": "C118",
   "status": "partial",
   "theorems": [
    "C118_no_use_after_free_partial",
    "C118_trigger_refuted"
   ],
   "note": "Proved for trigger delays shorter than the validity time; refuted: longer ones (use after free)."
  },
  {
   "property": "C119",
   "status": "partial",
   "theorems": [
    "C119_once_partial",
    "C119_processing_hold_refuted",
    "C119_infinite_refuted",
    "C119_shorter_refuted"
   ],
   "note": "Proved within the hold time, for clocks that do not overflow; refuted: the processing hold time is not used, infinite validity times wrap, a short validity time shortens the memory of earlier messages."
  },
  {
   "property": "C120",
   "status": "partial",
   "theorems": [
    "C120_forward_partial",
    "C120_only_selectors",
    "C120_stranger_refuted",
    "C120_link_refuted"
   ],
   "note": "Proved as C119, and for every state that nothing is forwarded for others; refuted: a copy of a stranger stops the forwarding, the link itself may be down."
  },
  {
   "property": "C121",
   "status": "partial",
   "theorems": [
    "C121_best_partial",
    "C121_kept_partial",
    "C121_nhdp",
    "C121_stale_refuted",
    "C121_kept_refuted"
   ],
   "note": "Proved for routers with a usable address; refuted: without one the old originator stays, an equally good one on two interfaces is replaced."
  },
  {
   "property": "C122",
   "status": "proved",
   "theorems": [
    "C122_remembered",
    "C122_only_originators",
    "C122_forgotten"
   ],
   "note": "For clocks that do not overflow."
  },
  {
   "property": "C123",
   "status": "partial",
   "theorems": [
    "C123_tc_neighbors_partial",
    "C123_shared_address_refuted"
   ],
   "note": "Proved for all addresses that are not attached networks too; refuted for these."
  },
  {
   "property": "C124",
   "status": "partial",
   "theorems": [
    "C124_tc_networks_partial",
    "C124_removed_domain_refuted",
    "C124_zero_distance_refuted",
    "C124_second_domain_refuted",
    "C124_source_prefixes_refuted"
   ],
   "note": "Proved for networks attached in all domains with distances that are not 0 and an address of their own; refuted: removed from one domain, distance 0 in one domain, attached in the second domain only, two source prefixes for one destination."
  },
  {
   "property": "C125",
   "status": "partial",
   "theorems": [
    "C125_attached_networks",
    "C125_same_distance_partial",
    "C125_same_distance_refuted"
   ],
   "note": "The map is proved for all histories; the mark for additions with distances that are not 0, refuted for distance 0."
  },
  {
   "property": "C126",
   "status": "partial",
   "theorems": [
    "C126_start_partial",
    "C126_start_complete",
    "C126_no_marks",
    "C126_stale_mark_refuted"
   ],
   "note": "Order, results, ends and completeness proved for all histories and graphs. Missing: refuted that existing dependencies without a circle always start - the mark of an earlier failure makes dependants report a circular dependency (C126_stale_mark_refuted)."
  },
  {
   "property": "C127",
   "status": "partial",
   "theorems": [
    "C127_stop_partial",
    "C127_case_refuted",
    "C127_cannot_refuted"
   ],
   "note": "Proved for all histories when dependencies are spelled like the names. Missing: refuted otherwise - compared with case when stopping, without when starting (C127_case_refuted) - and subsystems that cannot be stopped are (C127_cannot_refuted)."
  },
  {
   "property": "C128",
   "status": "partial",
   "theorems": [
    "C128_plain_partial",
    "C128_prefix",
    "C128_path_refuted",
    "C128_file_refuted",
    "C128_overflow_always"
   ],
   "note": "Proved for plain names and for names with the prefix. Refuted for paths (C128_path_refuted) and for names with the postfix (C128_file_refuted; C128_overflow_always: every four-letter plugin name with prefix and postfix makes the code copy 2^64-1 bytes)."
  },
  {
   "property": "C129",
   "status": "partial",
   "theorems": [
    "C129_quality",
    "C129_hysteresis",
    "C129_accepted_partial",
    "C129_rejected_partial",
    "C129_never_accepted_refuted",
    "C129_never_rejected_refuted"
   ],
   "note": "Quality, decisions and hysteresis proved for all histories; acceptance proved for accept < 1, rejection for reject * scaling >= 1/1000 (C129_accepted_partial, C129_rejected_partial). Refuted for the other allowed configurations: accept = 1 never accepts, and a quality with quality * scaling < 1/1000 never falls (C129_never_accepted_refuted, C129_never_rejected_refuted)."
  },
  {
   "property": "C130",
   "status": "proved",
   "theorems": [
    "C130_losses_bounded",
    "C130_losses_in_time"
   ],
   "note": "For all histories of timer events after a HELLO."
  },
  {
   "property": "C131",
   "status": "partial",
   "theorems": [
    "C131_metrics_can_be_sent",
    "C131_linear_metric_partial",
    "C131_more_received_is_not_worse",
    "C131_faster_is_not_worse",
    "C131_more_received_is_not_worse_quadratic_refuted",
    "C131_cubic_refuted",
    "C131_airtime_option_ignored",
    "C131_airtime_option_refuted",
    "C131_neighborhood_ignored"
   ],
   "note": "Range and transmittability proved for all histories and configurations; the value, and that more packets or higher speed are not worse, for linear loss costs without loss values of other layer2 sources and less than 2^28 packets (C131_linear_metric_partial). Refuted: with the quadratic function 17 of 128 packets cost more than 16; the cubic one is the fourth power; the airtime option has no effect; proved that the neighborhood penalty and dynamic exponent never have one (C131_neighborhood_ignored)."
  },
  {
   "property": "C132",
   "status": "partial",
   "theorems": [
    "C132_counts_of_last_intervals_partial",
    "C132_missing_hellos",
    "C132_duplicates_refuted",
    "C132_reordering_refuted"
   ],
   "note": "For packets in order with less than 65536 lost in a row (C132_counts_of_last_intervals_partial, C132_missing_hellos). Refuted for duplicated packets (more received than expected) and for two packets that change places (counts as 65536 lost packets)."
  },
  {
   "property": "C133",
   "status": "partial",
   "theorems": [
    "C133_median_speed_partial",
    "C133_fast_links_refuted",
    "C133_faster_links_refuted"
   ],
   "note": "For speeds below 2^31 bit/s and all histories (C133_median_speed_partial). Refuted for faster ones, which are cut to 32 bits."
  },
  {
   "property": "C134",
   "status": "partial",
   "theorems": [
    "C134_order_partial",
    "C134_calls_partial",
    "C134_large_refuted",
    "C134_memory_refuted",
    "C134_reconfigured_refuted"
   ],
   "note": "For packets below 64 KiB, available memory and an unchanged configuration (C134_order_partial, C134_calls_partial). Refuted for larger packets that have to wait, without memory (the results of the appends are ignored), and when the socket is opened again (the queue is dropped although accepted)."
  },
  {
   "property": "C135",
   "status": "partial",
   "theorems": [
    "C135_limit",
    "C135_reported",
    "C135_number_in_warning",
    "C135_number_refuted"
   ],
   "note": "Limit and report proved (C135_limit, C135_reported). Refuted: the number in the warning; proved that it is always one too large (C135_number_in_warning)."
  },
  {
   "property": "C136",
   "status": "partial",
   "theorems": [
    "C136_kind_partial",
    "C136_back_to_udp_refuted",
    "C136_protocol_refuted"
   ],
   "note": "Sockets never configured for raw IP, and the header of raw sockets (C136_kind_partial). Refuted: after a change from raw IP to UDP the begin of each packet is cut off; raw sockets are opened for protocol 0 in every case."
  },
  {
   "property": "C137",
   "status": "partial",
   "theorems": [
    "C137_sent_in_order_partial",
    "C137_all_sent_at_end",
    "C137_file",
    "C137_output_is_polled_partial",
    "C137_output_is_polled_refuted",
    "C137_file_is_polled_refuted",
    "C137_file_complete_refuted"
   ],
   "note": "Order, completeness at the end and polling are proved for all runs (polling without the callback buffer_underrun). Refuted: output of buffer_underrun and a file without other output can stay unsent; sendfile() with EAGAIN aborts the session."
  },
  {
   "property": "C138",
   "status": "partial",
   "theorems": [
    "C138_input_limit",
    "C138_number_of_sessions_partial",
    "C138_served_partial",
    "C138_number_of_sessions_refuted",
    "C138_served_refuted"
   ],
   "note": "The limit of input is proved. The number of sessions is proved up to the number of rejected connections, service as long as no init_session failed; refuted: more sessions than allowed after rejected connections ended, no service at all after failed initialisations (with use of freed memory)."
  },
  {
   "property": "C139",
   "status": "partial",
   "theorems": [
    "C139_timeout_restarted_partial",
    "C139_timeout_closes",
    "C139_removed_partial",
    "C139_timeout_refuted",
    "C139_refused_refuted",
    "C139_refused_closed_next",
    "C139_removed_refuted",
    "C139_added_again_refuted"
   ],
   "note": "The timer is proved to be restarted by input and by output and to close the session; removal is proved for sessions without pending output. Refuted: a session that copies a file is closed at the timeout; a refused connection is closed only by the next event; removal by force leaves sessions that serve requests; a socket added again is removed again."
  },
  {
   "property": "C140",
   "status": "partial",
   "theorems": [
    "C140_server_descriptors_partial",
    "C140_outgoing_socket_refuted",
    "C140_failed_connect_refuted",
    "C140_http_refuted"
   ],
   "note": "Proved for server sockets whose cleanup callback closes nothing. Refuted: sockets for outgoing connections close descriptor 0 when removed and when a connection fails (the new descriptor leaks); the HTTP server closes descriptor 0 at the end of every session without a file."
  },
  {
   "property": "C141",
   "status": "partial",
   "theorems": [
    "C141_set_partial",
    "C141_default",
    "C141_not_of_neighbor_partial",
    "C141_set_refuted",
    "C141_same_everywhere_refuted"
   ],
   "note": "All conditions are proved for all runs, the range but for addresses the user had set before. Refuted: an address of the user outside of the range is set again; the hash depends on the signedness of char, so that two routers may not agree about it."
  },
  {
   "property": "C142",
   "status": "partial",
   "theorems": [
    "C142_removed_partial",
    "C142_own_partial",
    "C142_user_kept_refuted",
    "C142_replaced_refuted"
   ],
   "note": "Proved: only present link-local addresses are removed, and only for a collision or when the plugin has an address set; if the user sets no link-local addresses only those of the plugin. Refuted: colliding link-local addresses of the user are removed; also one the user set in place of the generated one."
  },
  {
   "property": "C143",
   "status": "partial",
   "theorems": [
    "C143_kept",
    "C143_found",
    "C143_replaced_partial",
    "C143_prefix_refuted",
    "C143_retry_refuted",
    "C143_inactive_refuted"
   ],
   "note": "Finding, keeping and replacing (of addresses with prefix length 16) are proved. Refuted: a colliding address with another prefix length stays for ever; a refused removal is never tried again; a disabled plugin leaves its address when there are others."
  },
  {
   "property": "C144",
   "status": "partial",
   "theorems": [
    "C144_whom",
    "C144_some",
    "C144_traffic",
    "C144_address_refuted"
   ],
   "note": "All but the address is proved for all histories. Refuted: the probe goes to the address the link had at its first probe."
  },
  {
   "property": "C145",
   "status": "partial",
   "theorems": [
    "C145_turn_partial",
    "C145_new_links_refuted"
   ],
   "note": "Proved while no links are added. Refuted: new links are probed first, so a link waits as long as new ones come."
  },
  {
   "property": "C146",
   "status": "partial",
   "theorems": [
    "C146_size_partial",
    "C146_size_refuted"
   ],
   "note": "Proved for sizes that the message has space for. Refuted: configured sizes from 1216 to 1500 send an empty message."
  },
  {
   "property": "C147",
   "status": "partial",
   "theorems": [
    "C147_metric_partial",
    "C147_after_timer_partial",
    "C147_originator_refuted",
    "C147_partner_refuted"
   ],
   "note": "Proved while neighbors keep originator and partner, and right after each run of the timer in all histories, for partners with known originator. Refuted: a changed originator is not noticed; a partner without originator makes the entry for all neighbors of the interface go before the one for this neighbor."
  },
  {
   "property": "C148",
   "status": "partial",
   "theorems": [
    "C148_own_addresses_partial",
    "C148_moved_address_refuted"
   ],
   "note": "Proved but for the addresses that the interface had before and that another interface has now; refuted for those (moved address announced as THIS_IF on both interfaces until the hold time is over)."
  },
  {
   "property": "C149",
   "status": "partial",
   "theorems": [
    "C149_neighbor_addresses_partial",
    "C149_symmetric_partial",
    "C149_heard_link_refuted"
   ],
   "note": "Proved for the histories of C68 (counters: C67); the status of a heard link is not announced when the link has just ceased to be symmetric (refuted)."
  },
  {
   "property": "C150",
   "status": "partial",
   "theorems": [
    "C150_reply_partial",
    "C150_handshake_partial"
   ],
   "note": "Reply proved for all links that were not symmetric before or stay so; handshake proved for empty databases; lost HELLOs and further neighbors missing."
  },
  {
   "property": "C151",
   "status": "partial",
   "theorems": [
    "C151_flooding_partial",
    "C151_multicast_only_partial",
    "C151_lost_ipv4_refuted",
    "C151_lost_ipv6_refuted"
   ],
   "note": "Proved for neighbors with one family and for dualstack neighbors with symmetric links in both families; refuted for dualstack neighbors of which only one link is symmetric."
  },
  {
   "property": "C152",
   "status": "partial",
   "theorems": [
    "C152_shared_target_refuted",
    "C152_last_target_refuted",
    "C152_listener_refuted",
    "C152_section_refuted",
    "C152_careful_partial"
   ],
   "note": "Refuted in four ways: shared targets, the last target of an interface, listeners of shared interfaces, removed sections. Proved (C152_careful_partial) for users that avoid these: one user per destination, a target never the last reference to its interface, a hooked listener only by the last user."
  },
  {
   "property": "C153",
   "status": "partial",
   "theorems": [
    "C153_ports_partial",
    "C153_second_port_refuted"
   ],
   "note": "Proved while the protocol is given one port; refuted for a second port."
  },
  {
   "property": "C154",
   "status": "partial",
   "theorems": [
    "C154_in_time_partial",
    "C154_timer_sends",
    "C154_override_refuted",
    "C154_socket_change_refuted"
   ],
   "note": "Proved for the configured interval: a timer is due in time for every waiting message, and sends all of them. Refuted for intervals set by callers and for multicast targets when sockets change."
  },
  {
   "property": "C155",
   "status": "partial",
   "theorems": [
    "C155_packet_numbers_partial",
    "C155_socket_change_refuted"
   ],
   "note": "Proved for every target object; refuted for destinations, because multicast targets are replaced when sockets change."
  },
  {
   "property": "C156",
   "status": "partial",
   "theorems": [
    "C156_message_numbers_partial",
    "C156_added_interface_refuted"
   ],
   "note": "Proved, from any state, for histories in which no interface is added; refuted for those."
  },
  {
   "property": "C157",
   "status": "partial",
   "theorems": [
    "C157_first_section_partial",
    "C157_long_name_changed_refuted",
    "C157_long_name_removed_refuted",
    "C157_long_names_refuted"
   ],
   "note": "Proved for names of at most 15 characters; refuted for longer names (later changes ignored, removal of a node that is in no tree, second of two similar names without effect)."
  },
  {
   "property": "C158",
   "status": "partial",
   "theorems": [
    "C158_kernel_in_sync_partial",
    "C158_changed_section_refuted",
    "C158_left_at_shutdown_refuted"
   ],
   "note": "Proved while the sections stay the same; refuted for a section that changes the table of routes which are set."
  },
  {
   "property": "C159",
   "status": "partial",
   "theorems": [
    "C159_exact_partial",
    "C159_values_partial",
    "C159_second_route_refuted",
    "C159_replaced_route_refuted",
    "C159_removed_section_refuted",
    "C159_changed_section_refuted"
   ],
   "note": "Proved for sections that are there before the routes and at most one route for a destination at a time, without aging; refuted for a second route that is removed, a replaced route, removed and changed sections."
  },
  {
   "property": "C160",
   "status": "partial",
   "theorems": [
    "C160_no_aging_partial",
    "C160_no_removal_partial",
    "C160_removed_route_refuted",
    "C160_removed_section_refuted"
   ],
   "note": "Proved without aging and, with aging, while nothing is removed; refuted for a removed route and a removed section with aging."
  },
  {
   "property": "C161",
   "status": "partial",
   "theorems": [
    "C161_doubles_partial",
    "C161_two_sections_refuted"
   ],
   "note": "Proved when all domains of the section have the same metric; refuted when another section set a metric near the maximum for one of them."
  },
  {
   "property": "C162",
   "status": "partial",
   "theorems": [
    "C162_exact_partial",
    "C162_valid_partial",
    "C162_refused_refuted",
    "C162_not_removed_refuted",
    "C162_new_domain_refuted",
    "C162_wrong_metric_refuted",
    "C162_refuses_partial"
   ],
   "note": "Proved for correct lines that name domains which exist, with errno clear; refuted for errno left set (lines refused or not removed), for domains created by a later line and for numbers of more than 32 bits."
  },
  {
   "property": "C163",
   "status": "partial",
   "theorems": [
    "C163_first_partial",
    "C163_others_partial",
    "C163_other_networks_partial",
    "C163_removed_partial",
    "C163_timer_alternates_partial",
    "C163_timer_refuted",
    "C163_changed_value_refuted",
    "C163_section_name_refuted",
    "C163_other_section_refuted"
   ],
   "note": "Proved for the first application of a section, for values of others, other networks and removed values; refuted for the second application (timer or changed value), for sections with another name than the interface and for two sections."
  },
  {
   "property": "C164",
   "status": "partial",
   "theorems": [
    "C164_callbacks_partial",
    "C164_header_partial",
    "C164_addresses_refuted",
    "C164_addresses_ignored_partial",
    "C164_dropped_refuted"
   ],
   "note": "Proved: the callbacks are exact, and what the plugin accepts is characterized for all messages; refuted for the addresses (never checked) and for message TLVs of the types 2 to 4 (dropped although well-formed)."
  },
  {
   "property": "C165",
   "status": "partial",
   "theorems": [
    "C165_exact_partial",
    "C165_removed_section_refuted",
    "C165_other_section_refuted",
    "C165_late_section_refuted",
    "C165_same_address_refuted",
    "C165_unknown_domain_refuted"
   ],
   "note": "Proved for all histories of different addresses with the sections configured first, for existing domains; refuted for removed sections, sections configured later, addresses of two neighbors and unknown domains."
  }
 ]
}