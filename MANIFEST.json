{
 "claims": [
  {
   "property": "C01",
   "status": "partial",
   "theorems": [
    "C01_signed_add_clamped_partial",
    "C01_signed_add_clamped_refuted",
    "C01_signed_add_zero_undefined"
   ],
   "note": "REFUTED as stated: 0 + negative is undefined for int and wider. Proved for all other operands."
  },
  {
   "property": "C02",
   "status": "partial",
   "theorems": [
    "C02_signed_sub_clamped_partial",
    "C02_signed_sub_clamped_refuted",
    "C02_signed_sub_zero_undefined"
   ],
   "note": "REFUTED as stated: 0 - nonnegative is undefined for int and wider. Proved for all other operands."
  },
  {
   "property": "C03",
   "status": "proved",
   "theorems": [
    "C03_narrow_signed_total"
   ],
   "note": ""
  },
  {
   "property": "C04",
   "status": "proved",
   "theorems": [
    "C04_signed_add_characterised",
    "C04_signed_sub_characterised",
    "C04_signed_add_deviates_only_at_zero",
    "C04_signed_sub_deviates_only_at_zero"
   ],
   "note": ""
  },
  {
   "property": "C05",
   "status": "proved",
   "theorems": [
    "C05_no_abs_min_value_repairs",
    "C05_wrapping_abs_gives_min"
   ],
   "note": ""
  },
  {
   "property": "C06",
   "status": "proved",
   "theorems": [
    "C06_unsigned_add_exact",
    "C06_unsigned_sub_exact",
    "C06_bool_exact"
   ],
   "note": ""
  },
  {
   "property": "C07",
   "status": "partial",
   "theorems": [
    "C07_mixed_add_exact_refuted",
    "C07_mixed_sub_exact_refuted",
    "C07_mixed_add_exact_iff",
    "C07_mixed_sub_exact_iff",
    "C07_mixed_add_negative_value",
    "C07_mixed_sub_negative_value",
    "C07_mixed_add_any_width_iff",
    "C07_mixed_sub_any_width_iff"
   ],
   "note": "REFUTED as stated: a negative right operand is cast, not negated. Exact iff condition proved."
  },
  {
   "property": "C08",
   "status": "proved",
   "theorems": [
    "C08_mixed_add_nonnegative_exact",
    "C08_mixed_sub_nonnegative_exact"
   ],
   "note": ""
  },
  {
   "property": "C09",
   "status": "proved",
   "theorems": [
    "C09_duration_accumulates_saturating"
   ],
   "note": ""
  },
  {
   "property": "C10",
   "status": "proved",
   "theorems": [
    "C10_time_never_goes_backwards",
    "C10_time_decreases_to_zero"
   ],
   "note": ""
  },
  {
   "property": "C11",
   "status": "partial",
   "theorems": [
    "C11_time_plus_duration_refuted",
    "C11_time_plus_duration_iff",
    "C11_time_minus_duration_iff"
   ],
   "note": "REFUTED as stated for negative durations. Exact iff condition proved."
  },
  {
   "property": "C12",
   "status": "proved",
   "theorems": [
    "C12_negation_saturates",
    "C12_negation_involutive",
    "C12_negation_of_min"
   ],
   "note": ""
  },
  {
   "property": "C13",
   "status": "partial",
   "theorems": [
    "C13_abs_partial",
    "C13_abs_refuted",
    "C13_abs_of_narrow_min_negative",
    "C13_abs_of_wide_min"
   ],
   "note": "REFUTED at MIN: MIN again for narrow types, otherwise what std::abs makes of it, if anything (C13_abs_of_wide_min). Proved elsewhere."
  },
  {
   "property": "C14",
   "status": "proved",
   "theorems": [
    "C14_comparisons_agree_with_integers",
    "C14_total_order"
   ],
   "note": ""
  },
  {
   "property": "C15",
   "status": "proved",
   "theorems": [
    "C15_add_then_sub",
    "C15_sub_then_add",
    "C15_saturation_loses",
    "C15_exactly"
   ],
   "note": ""
  },
  {
   "property": "C16",
   "status": "proved",
   "theorems": [
    "C16_copy_and_move",
    "C16_moves_never_duplicate"
   ],
   "note": ""
  },
  {
   "property": "C17",
   "status": "proved",
   "theorems": [
    "C17_result_classification",
    "C17_enumerators_classified",
    "C17_documented_values"
   ],
   "note": ""
  },
  {
   "property": "C18",
   "status": "proved",
   "theorems": [
    "C18_length_to_dlc_minimal",
    "C18_length_to_dlc_saturates",
    "C18_table_reads_in_bounds"
   ],
   "note": ""
  },
  {
   "property": "C19",
   "status": "proved",
   "theorems": [
    "C19_dlc_to_length_is_iso",
    "C19_invalid_code_is_empty",
    "C19_code_roundtrip",
    "C19_length_roundtrip",
    "C19_length_to_dlc_monotone",
    "C19_dlc_to_length_monotone"
   ],
   "note": ""
  },
  {
   "property": "C20",
   "status": "partial",
   "theorems": [
    "C20_set_data_length_within_mtu_refuted",
    "C20_set_data_length_within_mtu_iff",
    "C20_set_data_length_gives_room"
   ],
   "note": "REFUTED for MTUs that are not an FD length; exact iff proved."
  },
  {
   "property": "C21",
   "status": "partial",
   "theorems": [
    "C21_construction_in_bounds_refuted",
    "C21_construction_undefined_iff",
    "C21_constructed_contents",
    "C21_no_timestamp_given"
   ],
   "note": "REFUTED when the code's length exceeds the MTU (data is copied beyond the buffer: UB); exact iff proved."
  },
  {
   "property": "C22",
   "status": "proved",
   "theorems": [
    "C22_null_data_gives_empty_frame"
   ],
   "note": ""
  },
  {
   "property": "C23",
   "status": "proved",
   "theorems": [
    "C23_frames_stay_well_formed"
   ],
   "note": ""
  },
  {
   "property": "C24",
   "status": "proved",
   "theorems": [
    "C24_equality_is_declared_equality",
    "C24_equality_is_equivalence"
   ],
   "note": ""
  },
  {
   "property": "C25",
   "status": "proved",
   "theorems": [
    "C25_mask_selects_bits",
    "C25_mask_in_equality",
    "C25_high_mask_bits_ignored"
   ],
   "note": ""
  },
  {
   "property": "C26",
   "status": "proved",
   "theorems": [
    "C26_priority_strict_weak_order",
    "C26_operators_agree",
    "C26_equal_frames_unordered"
   ],
   "note": ""
  },
  {
   "property": "C27",
   "status": "proved",
   "theorems": [
    "C27_priority_is_bus_arbitration"
   ],
   "note": ""
  },
  {
   "property": "C28",
   "status": "proved",
   "theorems": [
    "C28_copy_reproduces",
    "C28_assign_reproduces",
    "C28_assign_independent",
    "C28_copies_are_independent"
   ],
   "note": ""
  },
  {
   "property": "C29",
   "status": "proved",
   "theorems": [
    "C29_fd_payload_table_minimal",
    "C29_classic_payload_table_minimal",
    "C29_tables_cover_all_payloads"
   ],
   "note": ""
  },
  {
   "property": "C30",
   "status": "proved",
   "theorems": [
    "C30_filter_equality",
    "C30_filter_copy",
    "C30_default_filter_matches_all"
   ],
   "note": ""
  },
  {
   "property": "C31",
   "status": "proved",
   "theorems": [
    "C31_null_or_empty_is_noop"
   ],
   "note": ""
  },
  {
   "property": "C32",
   "status": "partial",
   "theorems": [
    "C32_refuted",
    "C32_exact_partial"
   ],
   "note": "REFUTED: bits that must cross a byte boundary are wrong (the source byte is rotated instead). Exact iff proved."
  },
  {
   "property": "C33",
   "status": "proved",
   "theorems": [
    "C33_in_byte_bits_correct"
   ],
   "note": ""
  },
  {
   "property": "C34",
   "status": "partial",
   "theorems": [
    "C34_refuted",
    "C34_exact_partial"
   ],
   "note": "REFUTED: bits that must cross a byte boundary are wrong. Exact iff proved."
  },
  {
   "property": "C35",
   "status": "proved",
   "theorems": [
    "C35_in_byte_bits_correct"
   ],
   "note": ""
  },
  {
   "property": "C36",
   "status": "proved",
   "theorems": [
    "C36_aligned_unaligned_to_aligned_exact",
    "C36_aligned_aligned_to_unaligned_exact"
   ],
   "note": ""
  },
  {
   "property": "C37",
   "status": "partial",
   "theorems": [
    "C37_unaligned_to_aligned_refuted",
    "C37_aligned_to_unaligned_refuted",
    "C37_before_offset_refuted",
    "C37_unaligned_to_aligned_partial",
    "C37_aligned_to_unaligned_partial",
    "C37_sizes_kept"
   ],
   "note": "REFUTED: whole bytes are written whatever the length, and bits before the offset are merged with source bits. An exact iff says which bits keep their value for every source."
  },
  {
   "property": "C38",
   "status": "proved",
   "theorems": [
    "C38_unaligned_to_aligned_defined_iff",
    "C38_aligned_to_unaligned_defined_iff",
    "C38_unaligned_to_aligned_reads_only",
    "C38_aligned_to_unaligned_reads_only"
   ],
   "note": ""
  },
  {
   "property": "C39",
   "status": "partial",
   "theorems": [
    "C39_refuted",
    "C39_offset_below_length_partial",
    "C39_enough_iff_partial"
   ],
   "note": "REFUTED for offsets >= length; proved for every offset < length. Exactly (C39_enough_iff_partial): the documented sizes are enough iff the offset lies in one of the bytes that length_bits bits need."
  },
  {
   "property": "C40",
   "status": "partial",
   "theorems": [
    "C40_refuted",
    "C40_value_partial"
   ],
   "note": "REFUTED: e.g. 16 is returned for length 13. Exact value proved for all arguments."
  },
  {
   "property": "C41",
   "status": "proved",
   "theorems": [
    "C41_pack_unpack_restores_low_bits"
   ],
   "note": ""
  },
  {
   "property": "C42",
   "status": "proved",
   "theorems": [
    "C42_allocate_returns_unused_block",
    "C42_outstanding_distinct",
    "C42_never_undefined"
   ],
   "note": ""
  },
  {
   "property": "C43",
   "status": "proved",
   "theorems": [
    "C43_allocate_refused_iff",
    "C43_no_leak"
   ],
   "note": ""
  },
  {
   "property": "C44",
   "status": "proved",
   "theorems": [
    "C44_pool_is_lifo"
   ],
   "note": ""
  },
  {
   "property": "C45",
   "status": "proved",
   "theorems": [
    "C45_oversized_refused",
    "C45_fitting_sizes_equivalent",
    "C45_spurious_failures_invisible"
   ],
   "note": ""
  },
  {
   "property": "C46",
   "status": "proved",
   "theorems": [
    "C46_deallocate_null_is_noop"
   ],
   "note": ""
  },
  {
   "property": "C47",
   "status": "proved",
   "theorems": [
    "C47_client_data_survives"
   ],
   "note": ""
  },
  {
   "property": "C48",
   "status": "proved",
   "theorems": [
    "C48_blocks_disjoint_aligned_inside",
    "C48_block_holds_pointer"
   ],
   "note": ""
  },
  {
   "property": "C49",
   "status": "partial",
   "theorems": [
    "C49_refuted",
    "C49_exact_partial"
   ],
   "note": "REFUTED: allocate(n) reserves n bytes, not n objects. Exact condition proved (value types of one byte)."
  },
  {
   "property": "C50",
   "status": "partial",
   "theorems": [
    "C50_aba_refuted",
    "C50_stale_refuted",
    "C50_unlinked_refuted"
   ],
   "note": "REFUTED by three schedules, for every number of blocks: ABA (two blocks or more); client data read as a link, also when every deallocate runs without interruption; a block published before it is linked. C51 proves the safe discipline. C147 says exactly when harm is done."
  },
  {
   "property": "C51",
   "status": "proved",
   "theorems": [
    "C51_exclusive",
    "C51_null_iff_exhausted",
    "C51_refused_iff_exhausted",
    "C51_not_lost",
    "C51_data"
   ],
   "note": ""
  },
  {
   "property": "C52",
   "status": "proved",
   "theorems": [
    "C52_solo_completes",
    "C52_solo_null_completes",
    "C52_failure_means_progress"
   ],
   "note": ""
  },
  {
   "property": "C53",
   "status": "proved",
   "theorems": [
    "C53_double_free_breaks_exclusivity",
    "C53_free_block_returned_again"
   ],
   "note": ""
  },
  {
   "property": "C54",
   "status": "proved",
   "theorems": [
    "C54_write_reports_kernel_count",
    "C54_write_nothing"
   ],
   "note": ""
  },
  {
   "property": "C55",
   "status": "partial",
   "theorems": [
    "C55_write_identifier_and_payload_partial",
    "C55_write_length_iff",
    "C55_write_length_refuted"
   ],
   "note": "REFUTED for the length: the length code is sent as the byte length. Identifier, format and payload proved; length right iff at most 8 bytes."
  },
  {
   "property": "C56",
   "status": "partial",
   "theorems": [
    "C56_write_in_bounds_iff",
    "C56_write_out_of_bounds_refuted"
   ],
   "note": "REFUTED: more than 4 frames is out of bounds. Exact condition proved."
  },
  {
   "property": "C57",
   "status": "proved",
   "theorems": [
    "C57_read_delivers_in_order",
    "C57_read_nothing_or_error"
   ],
   "note": ""
  },
  {
   "property": "C58",
   "status": "partial",
   "theorems": [
    "C58_read_accepts_iff",
    "C58_read_extended_partial",
    "C58_read_filter_refuted"
   ],
   "note": "REFUTED both ways (11-bit and remote frames delivered, extended id 0 dropped). Exact acceptance condition proved."
  },
  {
   "property": "C59",
   "status": "partial",
   "theorems": [
    "C59_read_length_iff",
    "C59_read_length_refuted"
   ],
   "note": "REFUTED for lengths above 8: byte length used as length code. Exact condition proved."
  },
  {
   "property": "C60",
   "status": "proved",
   "theorems": [
    "C60_loopback_lossless"
   ],
   "note": ""
  },
  {
   "property": "C61",
   "status": "proved",
   "theorems": [
    "C61_statistics_exact",
    "C61_write_keeps_statistics"
   ],
   "note": ""
  },
  {
   "property": "C62",
   "status": "partial",
   "theorems": [
    "C62_drops_never_reported_refuted",
    "C62_reported_drops_added_partial"
   ],
   "note": "REFUTED: the control buffer has no room for the drop count beside the timestamp, so it is lost in every run. Kernel ancillary data (put_cmsg) is part of the specification."
  },
  {
   "property": "C63",
   "status": "proved",
   "theorems": [
    "C63_timestamps_exact",
    "C63_no_timestamp_is_zero",
    "C63_representable_time"
   ],
   "note": ""
  },
  {
   "property": "C64",
   "status": "proved",
   "theorems": [
    "C64_filters_pass_exactly_selected_frames",
    "C64_filters_with_flag_bits",
    "C64_refused_changes_nothing",
    "C64_outcomes",
    "C64_too_many_filters"
   ],
   "note": "Relative to the Linux filter semantics stated in GroupSpec.kernel_passes. C64_too_many_filters records the behaviour at 2^29 filters."
  },
  {
   "property": "C65",
   "status": "proved",
   "theorems": [
    "C65_empty_filter_list_blocks_everything",
    "C65_refused"
   ],
   "note": ""
  },
  {
   "property": "C66",
   "status": "partial",
   "theorems": [
    "C66_null_array_refuted",
    "C66_null_array_iff"
   ],
   "note": "REFUTED for more than 512 filters: the null check is conjoined with num_configs <= CAN_RAW_FILTER_MAX, so the array is dereferenced. Exact iff proved."
  },
  {
   "property": "C67",
   "status": "proved",
   "theorems": [
    "C67_reconfigure_all_or_first_failure",
    "C67_reconfigure_null_array"
   ],
   "note": ""
  },
  {
   "property": "C68",
   "status": "partial",
   "theorems": [
    "C68_reconfigure_terminates_refuted",
    "C68_reconfigure_terminates_iff",
    "C68_start_terminates_refuted",
    "C68_start_terminates_iff"
   ],
   "note": "REFUTED: the loop counters have 8 bits, so with 256 or more interfaces the loops never end (reconfigureFilters: unless one fails). Exact iff proved for both functions."
  },
  {
   "property": "C69",
   "status": "partial",
   "theorems": [
    "C69_select_waits_requested_time_refuted",
    "C69_select_waits_requested_time_iff",
    "C69_zero_timeout_undefined",
    "C69_zero_timeout_wrapping"
   ],
   "note": "REFUTED: microseconds are stored in tv_nsec, and a zero timeout runs into the saturating subtraction defect. Exact iff for positive timeouts."
  },
  {
   "property": "C70",
   "status": "proved",
   "theorems": [
    "C70_select_classifies"
   ],
   "note": ""
  },
  {
   "property": "C71",
   "status": "proved",
   "theorems": [
    "C71_start_reports_redundancy"
   ],
   "note": "Relative to comes_up: every system call of the attempt succeeds and the descriptor is positive (descriptor 0 counts as a failure, see C73)."
  },
  {
   "property": "C72",
   "status": "partial",
   "theorems": [
    "C72_null_after_failed_start_refuted",
    "C72_failed_start_keeps_pointer"
   ],
   "note": "REFUTED: on failure the caller's pointer keeps its previous value. C72_failed_start_keeps_pointer says exactly when it is null."
  },
  {
   "property": "C73",
   "status": "partial",
   "theorems": [
    "C73_no_socket_leaked_refuted",
    "C73_only_descriptor_0_is_leaked",
    "C73_no_socket_leaked_partial",
    "C73_stop_closes_each_once"
   ],
   "note": "REFUTED when the kernel hands out descriptor 0 (standard input closed). Proved: nothing but descriptor 0 is ever leaked, and nothing at all if it is in use."
  },
  {
   "property": "C74",
   "status": "partial",
   "theorems": [
    "C74_indices_are_positions_refuted",
    "C74_indices_are_positions_iff"
   ],
   "note": "REFUTED: indices are positions in the list of names. Exact iff proved."
  },
  {
   "property": "C75",
   "status": "proved",
   "theorems": [
    "C75_write_reaches_addressed_interface",
    "C75_read_reaches_addressed_interface",
    "C75_index_range",
    "C75_index_255_in_large_groups"
   ],
   "note": "For groups of at most 255 interfaces; C75_index_255_in_large_groups shows what happens beyond."
  },
  {
   "property": "C76",
   "status": "proved",
   "theorems": [
    "C76_verdict"
   ],
   "note": "Exact for every history of kernel deliveries."
  },
  {
   "property": "C77",
   "status": "partial",
   "theorems": [
    "C77_devices_accepted_refuted",
    "C77_documented_options"
   ],
   "note": "REFUTED: a repeated --device dereferences a null optarg. Exact characterisation proved for all documented option lists."
  },
  {
   "property": "C78",
   "status": "partial",
   "theorems": [
    "C78_constants_refuted",
    "C78_constants_truncate_partial",
    "C78_integer_constants"
   ],
   "note": "REFUTED: non-integers are truncated, and numbers of 64 bits do not compile. Exact characterisation proved."
  },
  {
   "property": "C79",
   "status": "partial",
   "theorems": [
    "C79_self_assignment_refuted",
    "C79_self_assignment_partial"
   ],
   "note": "REFUTED: std::copy onto its own range is undefined for every MTU > 0."
  },
  {
   "property": "C80",
   "status": "partial",
   "theorems": [
    "C80_in_place_refuted",
    "C80_in_place_aligned_to_unaligned_refuted",
    "C80_in_place_nothing",
    "C80_in_place_exactly",
    "C80_in_place_aligned_to_unaligned_exactly"
   ],
   "note": "REFUTED for every array: at a byte-aligned offset the visited bytes are zeroed. Proved exactly for every offset, in both directions: which bits are left, what is returned, when the call is undefined."
  },
  {
   "property": "C81",
   "status": "proved",
   "theorems": [
    "C81_started_group_filters_as_requested"
   ],
   "note": ""
  },
  {
   "property": "C82",
   "status": "proved",
   "theorems": [
    "C82_success_means_a_device",
    "C82_meaning",
    "C82_every_command_line",
    "C82_undefined_iff",
    "C82_success_iff",
    "C82_posix_meaning",
    "C82_posix_every_command_line",
    "C82_posix_cut"
   ],
   "note": "Parsing that reaches the null optarg of C77 is a separate outcome. It is reached exactly as C82_undefined_iff says."
  },
  {
   "property": "C83",
   "status": "proved",
   "theorems": [
    "C83_starts",
    "C83_loopback_succeeds"
   ],
   "note": ""
  },
  {
   "property": "C84",
   "status": "partial",
   "theorems": [
    "C84_duration_history_refuted",
    "C84_duration_history_exact_when_defined",
    "C84_duration_history_undefined_iff"
   ],
   "note": "REFUTED at 0: lowering a duration that is exactly 0 is undefined behaviour; the undefined histories are characterised exactly and all other histories are exact."
  },
  {
   "property": "C85",
   "status": "proved",
   "theorems": [
    "C85_maximum_duration",
    "C85_maximum_time"
   ],
   "note": "Both types, every width."
  },
  {
   "property": "C86",
   "status": "proved",
   "theorems": [
    "C86_exit_status",
    "C86_more_than_255_devices"
   ],
   "note": "The exit statuses are those of programs with at most 255 devices; with more the program does not end (C86_more_than_255_devices)."
  },
  {
   "property": "C87",
   "status": "partial",
   "theorems": [
    "C87_every_socket_closed_refuted",
    "C87_only_descriptor_0_stays_open",
    "C87_every_socket_closed_partial"
   ],
   "note": "REFUTED when descriptor 0 is free at the start: a socket may then get descriptor 0, which close paths treat as absent (C87_every_socket_closed_refuted). Proved if descriptor 0 is open; in every run at most descriptor 0 stays open."
  },
  {
   "property": "C88",
   "status": "proved",
   "theorems": [
    "C88_transmits_each_character_once",
    "C88_transmits_up_to_null",
    "C88_echo",
    "C88_never_ready_never_returns"
   ],
   "note": "None stands for still waiting for the device after the given number of status reads per character."
  },
  {
   "property": "C89",
   "status": "partial",
   "theorems": [
    "C89_write_reports_count_refuted",
    "C89_write_transmits_partial"
   ],
   "note": "REFUTED: _write answers 0 after transmitting everything (C89_write_reports_count_refuted); what it transmits and when it refuses is proved exactly (C89_write_transmits_partial)."
  },
  {
   "property": "C90",
   "status": "proved",
   "theorems": [
    "C90_startup_initialises_memory"
   ],
   "note": ""
  },
  {
   "property": "C91",
   "status": "proved",
   "theorems": [
    "C91_getcwd_stays_in_buffer",
    "C91_clock_stands_still"
   ],
   "note": ""
  },
  {
   "property": "C92",
   "status": "proved",
   "theorems": [
    "C92_filter_limit_exact",
    "C92_group_filter_limit_exact"
   ],
   "note": ""
  },
  {
   "property": "C93",
   "status": "partial",
   "theorems": [
    "C93_sent_bytes_partial",
    "C93_received_bytes_are_sent",
    "C93_sent_bytes_are_sent_again",
    "C93_refuted"
   ],
   "note": "REFUTED: bytes behind the payload are those of the message previously received or sent in the same slot (C93_received_bytes_are_sent). Proved: identifier, length and payload bytes never depend on the history, and whole messages do not for 64-byte frames."
  },
  {
   "property": "C94",
   "status": "proved",
   "theorems": [
    "C94_received_bytes_are_the_messages",
    "C94_reads_do_not_depend_on_history"
   ],
   "note": ""
  },
  {
   "property": "C95",
   "status": "partial",
   "theorems": [
    "C95_bus_transfer_iff",
    "C95_bus_transfer_refuted"
   ],
   "note": "REFUTED: the length code is sent as byte count. Exact: unchanged iff at most 8 bytes, or 24 bytes of which the last 12 are zero (C95_bus_transfer_iff)."
  },
  {
   "property": "C96",
   "status": "proved",
   "theorems": [
    "C96_time_suites_accepted",
    "C96_acceptance_is_incomplete"
   ],
   "note": ""
  },
  {
   "property": "C97",
   "status": "proved",
   "theorems": [
    "C97_frame_suite_accepts_iff",
    "C97_masks",
    "C97_acceptance_protects_mtu"
   ],
   "note": ""
  },
  {
   "property": "C98",
   "status": "proved",
   "theorems": [
    "C98_pool_suite_accepted",
    "C98_verdicts",
    "C98_failure_spreads",
    "C98_pool_suite_rejects_empty_blocks"
   ],
   "note": ""
  },
  {
   "property": "C99",
   "status": "partial",
   "theorems": [
    "C99_suite_runs_into_undefined_behaviour_refuted",
    "C99_max_from_zero_exact",
    "C99_math_suite_accepted_partial"
   ],
   "note": "REFUTED: SaturatingSubMaxFromZero calls std::abs on the minimum for signed types at least as wide as int, which is undefined (C99_max_from_zero_exact gives the exact condition). The other nineteen test cases hold for bool and at every width from 8."
  },
  {
   "property": "C100",
   "status": "partial",
   "theorems": [
    "C100_core_clock_exact_partial",
    "C100_core_frequency_unique",
    "C100_always_defined",
    "C100_changing_clock_refuted",
    "C100_when_read",
    "C100_when_read_some",
    "C100_only_reads"
   ],
   "note": "REFUTED in part: if the clock source is switched between the function's two reads of CSR, the answer can be the new source divided by the old divider, a frequency the core never had (C100_changing_clock_refuted). Proved exact whatever the registers do: the answer is the frequency of a chip each of whose fields is as it is when it is read (C100_when_read), hence exact for registers that hold still; always defined."
  },
  {
   "property": "C101",
   "status": "proved",
   "theorems": [
    "C101_clock_sequence_orderly",
    "C101_seen_is_answered"
   ],
   "note": "For every chip and every number of polls."
  },
  {
   "property": "C102",
   "status": "proved",
   "theorems": [
    "C102_bring_up_ends",
    "C102_clocks_configured",
    "C102_pll_dividers",
    "C102_runs_at_80MHz",
    "C102_waits_for_oscillator"
   ],
   "note": "Termination, configuration and the computed frequency."
  },
  {
   "property": "C103",
   "status": "partial",
   "theorems": [
    "C103_line_settings",
    "C103_any_configuration_refuted",
    "C103_pins_partial",
    "C103_clock_source_partial"
   ],
   "note": "REFUTED in part: PORT_init and LPUART1_init OR the new value into 3-bit fields, so a field that held another value (e.g. ALT1) ends up wrong; exact condition proved (C103_pins_partial, C103_clock_source_partial). The line settings hold always; main's comment names 9600 baud, which is not what is set."
  },
  {
   "property": "C104",
   "status": "proved",
   "theorems": [
    "C104_reset_request",
    "C104_watchdog_disabled",
    "C104_floating_point_enabled"
   ],
   "note": "All register contents."
  },
  {
   "property": "C105",
   "status": "proved",
   "theorems": [
    "C105_console"
   ],
   "note": "googletest is represented by the buffers it prints and its result."
  },
  {
   "property": "C106",
   "status": "partial",
   "theorems": [
    "C106_link_is_sound",
    "C106_link_succeeds_iff",
    "C106_linked_program_starts",
    "C106_places",
    "C106_image_in_flash_refuted",
    "C106_image_in_flash_partial"
   ],
   "note": "REFUTED in part: .data and .code have load addresses given by AT(...), which the linker checks against no memory area, so a program can link although its images end beyond flash (C106_image_in_flash_refuted); an exact iff says when they do not. Everything else proved for all sizes."
  },
  {
   "property": "C107",
   "status": "proved",
   "theorems": [
    "C107_blocks_in_use_are_apart",
    "C107_refused_iff",
    "C107_bytes_survive",
    "C107_never_undefined",
    "C107_undefined_iff"
   ],
   "note": "All histories, platforms and sizes."
  },
  {
   "property": "C108",
   "status": "partial",
   "theorems": [
    "C108_elements_refuted",
    "C108_elements_partial",
    "C108_size_and_capacity",
    "C108_elements_iff",
    "C108_bytes_always_fit"
   ],
   "note": "REFUTED: allocate(n) takes the number of elements for a number of bytes, so with elements of more than one byte a vector overruns its block and overwrites others (C108_elements_refuted). Exactly (C108_elements_iff): with two blocks or more the claim is true of an element type if and only if BlockSize elements fit into sizeof(Block), as one-byte elements do; proved also for every history whose arrays fit."
  },
  {
   "property": "C109",
   "status": "partial",
   "theorems": [
    "C109_failure_reported_refuted",
    "C109_failures_exactly",
    "C109_never_more_users_than_blocks"
   ],
   "note": "REFUTED without exceptions (the default): the refused allocation returns null and the vector uses it (C109_failure_reported_refuted). The exact outcome of every call is proved for both settings."
  },
  {
   "property": "C110",
   "status": "proved",
   "theorems": [
    "C110_test_vector",
    "C110_test_emplace",
    "C110_test_capacity",
    "C110_suite_verdicts",
    "C110_suite_accepted",
    "C110_suite_undefined_iff"
   ],
   "note": "For every growth policy."
  },
  {
   "property": "C111",
   "status": "partial",
   "theorems": [
    "C111_map_test_refuted",
    "C111_map_test_exactly",
    "C111_map_partial",
    "C111_nodes_survive"
   ],
   "note": "REFUTED: with 11 or more buckets, the bucket array overruns its 72-byte block and destroys the free list (C111_map_test_refuted, C111_map_test_exactly). Proved if the bucket arrays fit in a block."
  },
  {
   "property": "C112",
   "status": "proved",
   "theorems": [
    "C112_enough",
    "C112_both_needed",
    "C112_phases"
   ],
   "note": "All interleavings that keep the rule, with blocks passed between threads."
  },
  {
   "property": "C113",
   "status": "proved",
   "theorems": [
    "C113_one_allocator",
    "C113_second_condition_needed"
   ],
   "note": "All interleavings that keep the rule; without its second half a run fails (C113_second_condition_needed)."
  },
  {
   "property": "C114",
   "status": "proved",
   "theorems": [
    "C114_handlers_may_return"
   ],
   "note": "All points of interruption."
  },
  {
   "property": "C115",
   "status": "partial",
   "theorems": [
    "C115_handlers_may_allocate_refuted",
    "C115_handlers_may_allocate_partial"
   ],
   "note": "REFUTED: an interrupted allocate of the main program and a handler that allocates and returns give a block two holders; an interrupted deallocate and a handler that allocates follow client data (C115_handlers_may_allocate_refuted). Proved if nobody is interrupted inside of the pool's functions."
  },
  {
   "property": "C116",
   "status": "proved",
   "theorems": [
    "C116_serial"
   ],
   "note": "All histories of serial calls."
  },
  {
   "property": "C117",
   "status": "partial",
   "theorems": [
    "C117_races_exactly",
    "C117_race_free_refuted",
    "C117_race_free_partial"
   ],
   "note": "REFUTED: allocate reads the next member of a block that another thread may have allocated and be writing (C117_race_free_refuted), even if all threads only allocate. Proved for the uses of C113, C114 and C116. Exactly which accesses race: C117_races_exactly."
  },
  {
   "property": "C118",
   "status": "partial",
   "theorems": [
    "C118_first_use_refuted",
    "C118_first_use_partial",
    "C118_no_deadlock"
   ],
   "note": "REFUTED with -fno-threadsafe-statics, which the target build uses: overlapping first calls construct the pool twice and a block gets two holders (C118_first_use_refuted). Proved with thread-safe statics, and without them if, as documented, no call begins during the construction."
  },
  {
   "property": "C119",
   "status": "proved",
   "theorems": [
    "C119_reset_to_main",
    "C119_quiet_reset"
   ],
   "note": "The called functions' use of the stack is not modelled. Interrupts requested before the first instruction are taken at once (the core has them disabled after a reset)."
  },
  {
   "property": "C120",
   "status": "proved",
   "theorems": [
    "C120_vectors_after_start",
    "C120_named_handler",
    "C120_reset_vector",
    "C120_core_exceptions",
    "C120_table_complete"
   ],
   "note": ""
  },
  {
   "property": "C121",
   "status": "proved",
   "theorems": [
    "C121_every_call_returns",
    "C121_sockets_open_exactly_while_owned",
    "C121_only_descriptor_0_is_leaked"
   ],
   "note": "select and the getters change nothing and are left out."
  },
  {
   "property": "C122",
   "status": "proved",
   "theorems": [
    "C122_last_configuration_is_in_force",
    "C122_frames_read_were_asked_for"
   ],
   "note": "The theorem about reads assumes that the kernel delivers only error messages and frames that pass the filters in force; C127 examines when that is so."
  },
  {
   "property": "C123",
   "status": "proved",
   "theorems": [
    "C123_verdict_by_the_clock",
    "C123_a_report_every_second",
    "C123_reports_are_accurate",
    "C123_begins_unused"
   ],
   "note": "Each printed line is its name and numbers, not its characters."
  },
  {
   "property": "C124",
   "status": "partial",
   "theorems": [
    "C124_passing_files_need_no_change_refuted",
    "C124_status_partial",
    "C124_failures_do_not_pass"
   ],
   "note": "REFUTED: if clang-format's output cannot be parsed the file passes (C124_passing_files_need_no_change_refuted). C124_status_partial says exactly when the check passes. Parsing of XML and of arguments is not modelled; which files the pattern finds: C168."
  },
  {
   "property": "C125",
   "status": "partial",
   "theorems": [
    "C125_artifacts_are_downloaded_refuted",
    "C125_tests_need_a_port_partial",
    "C125_the_condition"
   ],
   "note": "REFUTED: the closing bracket has no blank before it, so the condition is false or an error whatever the identifier, and the artifacts are never downloaded."
  },
  {
   "property": "C126",
   "status": "partial",
   "theorems": [
    "C126_accepted_types_are_hosted_refuted",
    "C126_exactly_partial",
    "C126_accepted_iff"
   ],
   "note": "REFUTED: the assertion checks the size only; an over-aligned type is accepted and its objects are misaligned. C126_exactly_partial: it holds iff the type's alignment divides the blocks'."
  },
  {
   "property": "C127",
   "status": "partial",
   "theorems": [
    "C127_only_selected_frames_are_read_refuted",
    "C127_reconfiguration_keeps_frames_refuted",
    "C127_only_selected_frames_are_read_partial",
    "C127_only_waiting_frames_are_unselected"
   ],
   "note": "REFUTED as stated: the sockets are bound before their filters are installed, and a reconfiguration does not empty their queues, so frames that no filter in force selects are read. Proved: it holds from the first read that answers SuccessNothing, and exactly which frames are read before: at most as many as waited when the filters were configured are unselected, and they are the first ones read (C127_only_waiting_frames_are_unselected)."
  },
  {
   "property": "C128",
   "status": "proved",
   "theorems": [
    "C128_nothing_lost_repeated_or_reordered",
    "C128_nothing_means_all_was_read"
   ],
   "note": "Which messages are shown at all is C58."
  },
  {
   "property": "C129",
   "status": "partial",
   "theorems": [
    "C129_frames_written_are_frames_read_partial",
    "C129_frames_written_are_frames_read_refuted"
   ],
   "note": "REFUTED as stated because of C95: frames above 8 bytes change. Proved: order, number and identifiers for every frame, and equality exactly for the frames that C95 says survive."
  },
  {
   "property": "C130",
   "status": "partial",
   "theorems": [
    "C130_only_select_waits_refuted",
    "C130_which_operations_wait_partial"
   ],
   "note": "REFUTED: sendmmsg is called without MSG_DONTWAIT on a socket without SOCK_NONBLOCK. Proved: exactly select and the writing of at least one frame to an existing interface may wait."
  },
  {
   "property": "C131",
   "status": "proved",
   "theorems": [
    "C131_sockets_are_bound_to_their_devices"
   ],
   "note": "For device names without NUL (no device name has one)."
  },
  {
   "property": "C132",
   "status": "proved",
   "theorems": [
    "C132_only_open_descriptors_are_used",
    "C132_open_sockets_are_the_groups",
    "C132_write_asks_for_its_frames",
    "C132_read_asks_for_four",
    "C132_runs_are_histories"
   ],
   "note": "Descriptor 0 is taken to be open at the beginning (see C73 for what happens otherwise)."
  },
  {
   "property": "C133",
   "status": "proved",
   "theorems": [
    "C133_statistics_account_for_what_arrived"
   ],
   "note": ""
  },
  {
   "property": "C134",
   "status": "partial",
   "theorems": [
    "C134_receive_times_never_go_back_refuted",
    "C134_receive_times_partial"
   ],
   "note": "REFUTED: the sockets use SO_TIMESTAMP, the wall clock, and a message without a timestamp has time 0. Proved: the times are exactly those the kernel attached, in order."
  },
  {
   "property": "C135",
   "status": "proved",
   "theorems": [
    "C135_group_has_required_interfaces",
    "C135_interfaces_stay_the_same"
   ],
   "note": ""
  },
  {
   "property": "C136",
   "status": "proved",
   "theorems": [
    "C136_success_means_something_to_read",
    "C136_timeout_means_all_was_read",
    "C136_success_means_ready"
   ],
   "note": "The time waited, and timeouts for which select is undefined, are the subject of C69."
  },
  {
   "property": "C137",
   "status": "proved",
   "theorems": [
    "C137_allocate_steps_bounded",
    "C137_someone_succeeds",
    "C137_one_outcome_per_call",
    "C137_deallocate_two_steps"
   ],
   "note": "Steps are accesses to shared memory; schedules that follow a wild pointer are undefined (C50)."
  },
  {
   "property": "C138",
   "status": "partial",
   "theorems": [
    "C138_field_sent_is_field_received_partial",
    "C138_field_sent_is_field_received_refuted"
   ],
   "note": "REFUTED for fields beyond the byte given by the number of the length code and for codes above 12 (the code is handed to the kernel as the length, C95): for each such field a lost value is exhibited; for all others, in particular all fields of frames of up to 8 bytes, the claim is proved. Fields are whole bytes; see C41 for bits."
  },
  {
   "property": "C139",
   "status": "partial",
   "theorems": [
    "C139_same_program",
    "C139_last_words_partial",
    "C139_failure_is_explained_refuted",
    "C139_silent_iff",
    "C139_opening",
    "C139_needs_loopback",
    "C139_interfaces_reported",
    "C139_statistics",
    "C139_evaluations"
   ],
   "note": "REFUTED in one point: if no interface comes up the program fails and prints nothing in builds without tracing (C139_silent_iff: exactly then). Every other outcome is explained as claimed. Names are assumed to contain no line end and, for three of the theorems, no colon (Linux allows neither)."
  },
  {
   "property": "C140",
   "status": "partial",
   "theorems": [
    "C140_enough_memory",
    "C140_returns_or_throws",
    "C140_returns_with_memory",
    "C140_thrown_start",
    "C140_thrown_start_leaks_nothing",
    "C140_thrown_reconfigure",
    "C140_reconfigure_returns",
    "C140_null_interface",
    "C140_null_undefined_iff",
    "C140_null_group_refuted"
   ],
   "note": "REFUTED in one point: in builds whose new answers null, a missing group object is dereferenced (C140_null_undefined_iff: exactly then). Descriptor 0 is leaked as in C73. In builds with -fno-exceptions whose new throws, the program terminates instead."
  },
  {
   "property": "C141",
   "status": "proved",
   "theorems": [
    "C141_every_call_ends",
    "C141_open_sockets",
    "C141_open_sockets_exactly",
    "C141_use_count",
    "C141_independent",
    "C141_one_pointer",
    "C141_what_calls_do"
   ],
   "note": "Descriptor 0 as in C73: C141_open_sockets has the general statement, C141_open_sockets_exactly assumes that descriptor 0 is in use."
  },
  {
   "property": "C142",
   "status": "partial",
   "theorems": [
    "C142_linearizable_refuted",
    "C142_linearizable_partial",
    "C142_balance",
    "C142_one_thread"
   ],
   "note": "REFUTED without a rule for the use of the pool (the schedule of C50, C142_linearizable_refuted). Proved for all executions without stale exchanges, the exact condition for safe use of C147, which includes the uses of C51 and C112-C116 (C142_linearizable_partial). Missing: which executions with a stale exchange, after which the pool is broken, still look linearizable."
  },
  {
   "property": "C143",
   "status": "partial",
   "theorems": [
    "C143_time_history_refuted",
    "C143_time_history_defined",
    "C143_time_history_iff"
   ],
   "note": "REFUTED for negative durations (C143_time_history_refuted); never undefined (C143_time_history_defined) and right exactly if each step is (C143_time_history_iff)."
  },
  {
   "property": "C144",
   "status": "partial",
   "theorems": [
    "C144_elements_only_refuted",
    "C144_elements_only_iff",
    "C144_within_storage_partial",
    "C144_no_interfaces"
   ],
   "note": "REFUTED: the vector is never resized, so by the rules of std::vector the first call with memory is undefined (C144_elements_only_refuted, exactly when in C144_elements_only_iff). Proved for the rule that all storage the vector owns may be accessed, which is what implementations without container checks do (C144_within_storage_partial); all other parts of the property hold then."
  },
  {
   "property": "C145",
   "status": "partial",
   "theorems": [
    "C145_library_is_the_same",
    "C145_off",
    "C145_on",
    "C145_read",
    "C145_start",
    "C145_stop",
    "C145_program",
    "C145_failure_is_explained_refuted",
    "C145_silent_iff"
   ],
   "note": "REFUTED in the last sentence: also with traces a program none of whose interfaces comes up may print nothing at all (C145_failure_is_explained_refuted, exactly when in C145_silent_iff), because why a socket could not be opened is never traced. All the rest is proved."
  },
  {
   "property": "C146",
   "status": "partial",
   "theorems": [
    "C146_only_documented_refuted",
    "C146_documented_is_accepted",
    "C146_accepted_partial",
    "C146_durations_that_add",
    "C146_times_that_add",
    "C146_overload",
    "C146_frame_limit_is_needed",
    "C146_pool_limit_is_needed"
   ],
   "note": "REFUTED: durations of floating point (std::is_signed holds for double), times of bool and of pointers, and times with unsigned durations are compiled (C146_only_documented_refuted); exactly what is, in C146_accepted_partial. Adding is compiled for documented durations only, and for times besides with bool or one unsigned type for both. Frame<0> is within the documented limit but has an array of no elements, which C++ forbids (C146_documented_is_accepted). What the compile tests notice: C169."
  },
  {
   "property": "C147",
   "status": "proved",
   "theorems": [
    "C147_enough",
    "C147_needed",
    "C147_exact",
    "C147_culprit",
    "C147_harm",
    "C147_rules"
   ],
   "note": "Under sequentially consistent interleaving; C117 says which uses are free of data races. C147_exact is the condition, C147_culprit says that harm is always preceded by a stale exchange, C147_rules that the rules of C112-C116 are special cases."
  },
  {
   "property": "C148",
   "status": "proved",
   "theorems": [
    "C148_console_of_a_program"
   ],
   "note": "What _write answers is C89's subject: success here means that errno is not set and the answer is not negative."
  },
  {
   "property": "C149",
   "status": "partial",
   "theorems": [
    "C149_durations_refuted",
    "C149_durations_partial",
    "C149_sums_commute",
    "C149_times_keep_their_order",
    "C149_greater_durations_refuted",
    "C149_greater_durations_partial"
   ],
   "note": "REFUTED for durations at 0 (as C01, C02) and for times with two negative durations, of which the lesser leads to the later time. Exactly when: C149_durations_partial excludes only the operands of C04, C149_sums_commute and C149_greater_durations_partial are iffs. Times keep their order under every duration (C149_times_keep_their_order)."
  },
  {
   "property": "C150",
   "status": "partial",
   "theorems": [
    "C150_threads_refuted",
    "C150_threads_partial",
    "C150_no_race_partial",
    "C150_clashes_race",
    "C150_alone"
   ],
   "note": "REFUTED for calls that clash: sending and receiving on one interface share their buffers, so a write can send the frame another thread is receiving (C150_threads_refuted). C150_threads_partial: for calls that do not clash every interleaving is equivalent to the calls one after the other in the order of their return, with the same final state, and C150_no_race_partial: there are no data races. The condition is exact: any two calls that clash and have something to do can race (C150_clashes_race). C150_alone ties the programs to the sequential models."
  },
  {
   "property": "C151",
   "status": "proved",
   "theorems": [
    "C151_winners",
    "C151_highest_first",
    "C151_collision_iff",
    "C151_never_stuck",
    "C151_account",
    "C151_wait",
    "C151_drains_in_order"
   ],
   "note": "The bus and std::priority_queue are part of the specification; the code is the comparison. Frames of one node with the same identifier may leave in any order (priority_queue is not stable)."
  },
  {
   "property": "C152",
   "status": "partial",
   "theorems": [
    "C152_threads_refuted",
    "C152_defined_partial",
    "C152_sockets_partial",
    "C152_descriptors_partial",
    "C152_rest_partial",
    "C152_last_pointer",
    "C152_dropped_under_start",
    "C152_progress_partial",
    "C152_operations_end",
    "C152_alone",
    "C152_calls",
    "C152_steps",
    "C152_size"
   ],
   "note": "REFUTED without the rule that no thread stores into a pointer in use (a contract of std::shared_ptr, which the library neither documents nor avoids needing); _partial theorems: all executions that obey it. Use counts change atomically, as std::shared_ptr promises; memory is sequentially consistent."
  },
  {
   "property": "C153",
   "status": "partial",
   "theorems": [
    "C153_ancillary_partial",
    "C153_none_iff",
    "C153_never_again",
    "C153_room",
    "C153_fresh_memory",
    "C153_no_ancillary_refuted"
   ],
   "note": "REFUTED: the message headers keep pointing at the control buffers of the receives, whose lengths are never reset. C153_ancillary_partial says exactly what is handed over and C153_none_iff exactly when it is nothing. On kernels that examine ancillary data no write succeeds after the first message was received (C153_never_again)."
  },
  {
   "property": "C154",
   "status": "partial",
   "theorems": [
    "C154_any_length_refuted",
    "C154_ends",
    "C154_below",
    "C154_above",
    "C154_result_iff"
   ],
   "note": "REFUTED for 2^32 or more filters: the 32-bit counter never reaches the length, so the call throws std::bad_alloc, or std::length_error if memory lasts (C154_above). C154_result_iff gives the exact condition; C154_below equates the call with the model used by the other properties."
  },
  {
   "property": "C155",
   "status": "partial",
   "theorems": [
    "C155_versions_refuted",
    "C155_all_seen_iff_partial",
    "C155_first_counts",
    "C155_never_clash"
   ],
   "note": "REFUTED: the guard is made of the name without the version, so of two versions of a type only the first to be included is there, silently, whatever c.macrofy does (C155_versions_refuted). Exact condition: C155_all_seen_iff_partial; C155_first_counts says which counts, C155_never_clash that nothing is defined twice."
  },
  {
   "property": "C156",
   "status": "partial",
   "theorems": [
    "C156_fields_refuted",
    "C156_keeps_iff_partial",
    "C156_primitives_kept",
    "C156_union_refuted",
    "C156_service_iff_partial"
   ],
   "note": "REFUTED: fields that are not primitive (arrays, nested structures) get no member (C156_fields_refuted), and unions and services none at all (C156_union_refuted). Exact: C156_keeps_iff_partial, C156_service_iff_partial, C156_primitives_kept."
  },
  {
   "property": "C157",
   "status": "partial",
   "theorems": [
    "C157_lookup_refuted",
    "C157_lookup_exact_partial",
    "C157_files_refuted",
    "C157_files_exact_partial",
    "C157_files_top_level",
    "C157_link_iff_partial"
   ],
   "note": "REFUTED: no lookup directory is ever named: the first is skipped and the others are passed as words that begin with a blank (C157_lookup_refuted, exact C157_lookup_exact_partial); the loop over files goes one too far and takes a variable of the caller (C157_files_refuted; exact C157_files_exact_partial; right for calls outside functions); the example is linked to nothing (C157_link_iff_partial)."
  },
  {
   "property": "C158",
   "status": "partial",
   "theorems": [
    "C158_trace",
    "C158_exceptions",
    "C158_assert_refuted",
    "C158_assert_iff_partial",
    "C158_numbers",
    "C158_on_is_off_refuted",
    "C158_on_iff_partial",
    "C158_throws_iff",
    "C158_build_type_refuted",
    "C158_build_type_iff_partial",
    "C158_build_type_default"
   ],
   "note": "REFUTED: in debug builds the option for assertions is overridden unless exceptions are on, because the wrong variable is tested (C158_assert_refuted, exact C158_assert_iff_partial); an option set to ON is off in the code (C158_on_is_off_refuted, exact C158_on_iff_partial); linux-build.sh configures no build type (C158_build_type_refuted, exact C158_build_type_iff_partial). Tracing and exceptions macros proved as stated."
  },
  {
   "property": "C159",
   "status": "partial",
   "theorems": [
    "C159_one_job",
    "C159_one_job_all",
    "C159_jobs_lose_refuted",
    "C159_exact_partial"
   ],
   "note": "With one job proved as stated (C159_one_job, C159_one_job_all). REFUTED for several: another recipe clears the counters, and the coverage of a test is in no file (C159_jobs_lose_refuted). Exact for every interleaving: C159_exact_partial."
  },
  {
   "property": "C160",
   "status": "partial",
   "theorems": [
    "C160_each_test",
    "C160_after_clean",
    "C160_overall_refuted",
    "C160_overall_partial",
    "C160_overall_iff_partial"
   ],
   "note": "The files of the tests proved as stated (C160_each_test), and the overall file after clean, as the CI script does (C160_after_clean). REFUTED otherwise: coverage.all.info is not made again when a test changes, and the overall report stays as at the first build (C160_overall_refuted). Exact for every history: C160_overall_partial, C160_overall_iff_partial."
  },
  {
   "property": "C161",
   "status": "partial",
   "theorems": [
    "C161_published_only_if",
    "C161_passed_tests",
    "C161_script",
    "C161_every_script_refuted",
    "C161_runs_iff_partial",
    "C161_docs_iff",
    "C161_reports_iff",
    "C161_coverage_clean"
   ],
   "note": "REFUTED for two scripts: the tests with exceptions and the build of the Linux example are in no step, and it is published though they fail (C161_every_script_refuted, exact C161_runs_iff_partial). The rest proved as stated: C161_published_only_if, C161_passed_tests, C161_script, C161_docs_iff, C161_reports_iff, C161_coverage_clean."
  },
  {
   "property": "C162",
   "status": "partial",
   "theorems": [
    "C162_same_function",
    "C162_not_zero_refuted",
    "C162_last_reason_partial",
    "C162_not_zero_iff_partial",
    "C162_other_reason_refuted",
    "C162_none_required",
    "C162_earlier_reason_refuted"
   ],
   "note": "REFUTED: with no filter array (also with a negative index or the descriptor 0) the result is NotFound and errno 0 (C162_not_zero_refuted), and only the last interface's number survives (C162_earlier_reason_refuted), or the number of an optional call (C162_other_reason_refuted). Exact: C162_not_zero_iff_partial, C162_last_reason_partial (a failing close replaces the number). C162_none_required: without required interfaces errno is untouched."
  },
  {
   "property": "C163",
   "status": "partial",
   "theorems": [
    "C163_right_to_aligned_refuted",
    "C163_right_from_aligned_refuted",
    "C163_right_count_refuted",
    "C163_wrong_is_accepted_refuted",
    "C163_accepts_iff_partial",
    "C163_refusals_iff",
    "C163_right_exists"
   ],
   "note": "REFUTED both ways. Every pair that moves bits as documented is rejected, in each reading (C163_right_to_aligned_refuted, C163_right_from_aligned_refuted), and so is every copy that returns the number of bits (C163_right_count_refuted), because the expectations were taken from the defective results (C32, C34, C40) and use the length in two senses; such copies exist (C163_right_exists). The library's, which are wrong in every reading, are accepted (C163_wrong_is_accepted_refuted). Exactly what is accepted: C163_accepts_iff_partial."
  },
  {
   "property": "C164",
   "status": "partial",
   "theorems": [
    "C164_race_free_refuted",
    "C164_last_return",
    "C164_race_free_iff_partial",
    "C164_allocations_alone_refuted",
    "C164_overlapping_iff_partial",
    "C164_locked_partial",
    "C164_clients_partial",
    "C164_clients_refuted"
   ],
   "note": "REFUTED for the pool's accesses: deallocate stores the link after the exchange that publishes the block, so the thread that gets the block reads it unordered, even if the calls never overlap (C164_race_free_refuted); the last link a thread stores races with every access of another thread to that block (C164_last_return). With one allocation at a time the missing order of these stores before these reads is all there is (C164_race_free_iff_partial); a lock around the calls supplies it (C164_locked_partial). If allocations overlap, reads of links race with the next holder even if nothing is ever returned (C164_allocations_alone_refuted); without such reads nothing else would race (C164_overlapping_iff_partial). The clients' own accesses are ordered in all executions without stale exchanges (C164_clients_partial), the exact condition for safe use of C147, and not in all with one (C164_clients_refuted)."
  },
  {
   "property": "C165",
   "status": "partial",
   "theorems": [
    "C165_pointer_refuted",
    "C165_contents_refuted",
    "C165_locked_partial",
    "C165_visible_partial",
    "C165_linearizable_partial",
    "C165_linearizable_refuted",
    "C165_needed_partial",
    "C165_drains"
   ],
   "note": "REFUTED even if the calls never overlap: the link that deallocate stores after the exchange can still be in the buffer when it returns, so another thread's allocate takes the bytes of the former client for a link (C165_pointer_refuted), or the late store overwrites what the next holder wrote (C165_contents_refuted), or a block is given out twice (C165_linearizable_refuted). With calls one at a time that begin when the links stored by other threads have reached memory, as with a lock, the machine behaves as one without buffers (C165_locked_partial); with overlapping calls it does if in addition to C147's condition no store to a block is on the way when its link is read and when it is taken (C165_visible_partial), and taking it otherwise makes harm possible (C165_needed_partial); in both cases concurrent calls behave as calls made one after the other (C165_linearizable_partial)."
  },
  {
   "property": "C166",
   "status": "partial",
   "theorems": [
    "C166_headers_refuted",
    "C166_added_refuted",
    "C166_nested_refuted",
    "C166_rejected_refuted",
    "C166_removed_refuted",
    "C166_left_over",
    "C166_headers_partial",
    "C166_configured_partial",
    "C166_missing",
    "C166_success",
    "C166_succeeds",
    "C166_docs_refuted",
    "C166_docs_partial",
    "C166_docs_never",
    "C166_docs_clean_partial"
   ],
   "note": "REFUTED: the lists of inputs and outputs are taken when the build is configured, so an added definition gets no header (C166_headers_refuted, C166_added_refuted), definitions that use it go stale (C166_nested_refuted), a build can succeed with definitions nnvg rejects (C166_rejected_refuted), and headers of removed definitions stay for ever (C166_removed_refuted, C166_left_over); the documentation depends on doxygen.config alone (C166_docs_refuted, C166_docs_never). Proved: right headers after any history if nothing was added since the last configuration, hence always after configuring (C166_headers_partial, C166_configured_partial); right documentation after a clean or a change of the build number."
  },
  {
   "property": "C167",
   "status": "partial",
   "theorems": [
    "C167_bounded_refuted",
    "C167_bounded_partial",
    "C167_bound_reached",
    "C167_undisturbed"
   ],
   "note": "REFUTED: for every bound and every pool there is a schedule of two threads in which one call makes more steps (C167_bounded_refuted). Proved: at most three steps for each time another thread takes a block, a block is put back or the compare-exchange fails spuriously, plus three (C167_bounded_partial), which is the best bound (C167_bound_reached)."
  },
  {
   "property": "C168",
   "status": "partial",
   "theorems": [
    "C168_dotted_header_passes_refuted",
    "C168_pattern_in_path_refuted",
    "C168_checked_iff_partial",
    "C168_pattern_iff_partial",
    "C168_exactly_iff_partial",
    "C168_target_iff_partial"
   ],
   "note": "REFUTED: headers below a directory, or of a name, that begins with a dot are left out and the check passes (C168_dotted_header_passes_refuted); and in a checkout whose path has one of the characters * ? [ the headers of other directories are checked, possibly none of its own (C168_pattern_in_path_refuted). C168_checked_iff_partial and C168_pattern_iff_partial say exactly what is checked, C168_exactly_iff_partial when that is every header, C168_target_iff_partial when the target succeeds. Symbolic links are not modelled."
  },
  {
   "property": "C169",
   "status": "partial",
   "theorems": [
    "C169_group_checks_refuted",
    "C169_sizes_with_clang_refuted",
    "C169_other_generators_refuted",
    "C169_pass_iff_partial",
    "C169_no_false_alarm"
   ],
   "note": "REFUTED: with the project's flags the two tests of InterfaceGroup pass without its checks, since arrays of no elements are errors (C169_group_checks_refuted); with clang those of the sizes pass because of an unused private member (C169_sizes_with_clang_refuted); with another generator than for make all pass (C169_other_generators_refuted). C169_pass_iff_partial says exactly what is noticed; C169_no_false_alarm the other direction. That clang's -Wall rejects unused private members and that -pedantic rejects arrays of no elements is taken from the compilers' manuals; other warnings are not modelled."
  },
  {
   "property": "C170",
   "status": "partial",
   "theorems": [
    "C170_online_refuted",
    "C170_never_again",
    "C170_online_iff_partial",
    "C170_global_nnvg_refuted",
    "C170_success_means",
    "C170_start_again",
    "C170_packages_refuted",
    "C170_packages_iff_partial",
    "C170_offline_refuted",
    "C170_offline_iff_partial",
    "C170_downloaded",
    "C170_interrupted"
   ],
   "note": "REFUTED: one run without a network leaves an environment without nunavut behind, and no run succeeds again until the folder is deleted (C170_online_refuted, C170_never_again); packages added to requirements.txt later are not installed (C170_packages_refuted); another generator is refused although the folder is meant to be shared (C170_offline_refuted). C170_online_iff_partial, C170_packages_iff_partial and C170_offline_iff_partial say exactly when it works; C170_global_nnvg_refuted shows that their condition on a global nnvg is needed; C170_start_again is the remedy, C170_success_means that no run succeeds by mistake. That CMake refuses another generator and that a complete clone of a pinned commit is not fetched again are facts about CMake. Also proved: the sources are there only if a run with the network fetched them since the folder was deleted (C170_downloaded); an interrupted run does not succeed (C170_interrupted)."
  },
  {
   "property": "C171",
   "status": "partial",
   "theorems": [
    "C171_own_flavour_refuted",
    "C171_own_flavour_iff_partial",
    "C171_never_mixed",
    "C171_configured_builds",
    "C171_configure_before_make"
   ],
   "note": "REFUTED: the makefiles are in the shared directory, so make in one build directory uses those of the directory configured last (C171_own_flavour_refuted). C171_own_flavour_iff_partial says exactly when they are its own; C171_never_mixed, C171_configured_builds and C171_configure_before_make hold without conditions. How CMake's makefiles decide what is out of date is a fact about CMake."
  },
  {
   "property": "C172",
   "status": "partial",
   "theorems": [
    "C172_current_program_refuted",
    "C172_after_a_crash_refuted",
    "C172_current_program_iff_partial",
    "C172_clean_first",
    "C172_clean_loads",
    "C172_clean_then_trouble_refuted",
    "C172_missing_hex",
    "C172_build_success_iff",
    "C172_nothing_to_do",
    "C172_binary_refuted",
    "C172_binary_iff_partial"
   ],
   "note": "REFUTED: the conversion to hex is part of the recipe of the program, so that a conversion that fails once, or a build that is killed, leaves a program that is up to date beside an old hex file, which is then loaded (C172_current_program_refuted, C172_after_a_crash_refuted). C172_current_program_iff_partial says exactly which troubles do this; C172_clean_first, C172_clean_then_trouble_refuted and C172_missing_hex what helps and what does not. How make decides what is out of date is a fact about make. Also proved: when a build succeeds (C172_build_success_iff, C172_nothing_to_do); the binary file beside the hex file is harmed by exactly the listed troubles (C172_binary_refuted, C172_binary_iff_partial)."
  },
  {
   "property": "C173",
   "status": "partial",
   "theorems": [
    "C173_documented_refuted",
    "C173_documented_iff_partial",
    "C173_test_all_after_configure",
    "C173_new_test_refuted",
    "C173_any_time_iff_partial",
    "C173_configure_iff",
    "C173_not_configured"
   ],
   "note": "REFUTED: only compile tests are registered with CTest, so that the documented commands succeed with a unit test that fails (C173_documented_refuted); and the tests are listed only when CMake runs, so that a test added since is not run even by test_all (C173_new_test_refuted). C173_documented_iff_partial and C173_any_time_iff_partial say exactly what the commands tell; C173_test_all_after_configure that test_all right after CMake tells what is wanted; C173_configure_iff when CMake accepts the names. GLOB, NAME_WE and WILL_FAIL are facts about CMake. Before CMake has succeeded once all three commands fail (C173_not_configured)."
  },
  {
   "property": "C174",
   "status": "partial",
   "theorems": [
    "C174_any_order_refuted",
    "C174_memory_refuted",
    "C174_every_library_iff_partial",
    "C174_one_library_iff_partial",
    "C174_common_libraries_partial",
    "C174_once",
    "C174_versions"
   ],
   "note": "REFUTED: can.hpp uses std::copy and std::equal, and memory.hpp std::min and std::bad_alloc, without including <algorithm> or <new> (C174_any_order_refuted, C174_memory_refuted). C174_every_library_iff_partial and C174_one_library_iff_partial say exactly which units compile; C174_common_libraries_partial that all do with standard libraries whose <array> and <unordered_map> declare these names; C174_once that order and repetition do not matter otherwise; C174_versions is the version check. What the standard headers are required to declare is taken from ISO C++11."
  },
  {
   "property": "C175",
   "status": "partial",
   "theorems": [
    "C175_any_use_refuted",
    "C175_in_a_header_refuted",
    "C175_conditional_refuted",
    "C175_correct_iff_partial",
    "C175_links_iff",
    "C175_values",
    "C175_since_14",
    "C175_library"
   ],
   "note": "REFUTED: the static members are declared and never defined, so that before C++17 binding a reference to one (std::min, a comparison macro of googletest) does not link (C175_any_use_refuted), and in C++11 neither does choosing one of two with ?: (C175_conditional_refuted); the constants at namespace scope have internal linkage, so that a function of a program's header must not bind a reference to one (C175_in_a_header_refuted). C175_correct_iff_partial says exactly which programs are correct, C175_links_iff which link with a given compiler, C175_values that uses of the values always are, C175_library that the library and its suite do no more. The one definition rule is taken from ISO C++."
  },
  {
   "property": "C176",
   "status": "partial",
   "theorems": [
    "C176_mixed_refuted",
    "C176_other_elements_refuted",
    "C176_mixed_iff_partial",
    "C176_served",
    "C176_switch"
   ],
   "note": "REFUTED: the pool's allocate depends on a macro and is one function for the linker, so that a unit compiled with exceptions may get null, which standard containers then use, and a unit without may be thrown at (C176_mixed_refuted); also when the units' allocators have different element types, because these share the pool (C176_other_elements_refuted). C176_mixed_iff_partial says exactly for which programs this cannot happen; C176_served that allocations that can be served are not affected; C176_switch is the switch. How compilers and linkers treat functions defined in several units is a fact about them."
  },
  {
   "property": "C177",
   "status": "partial",
   "theorems": [
    "C177_copies_refuted",
    "C177_copies_iff_partial",
    "C177_static_pool",
    "C177_each_way",
    "C177_accepted"
   ],
   "note": "REFUTED for types of pool that meet the documented requirements: copies by value and conversions for other elements, as every container makes, ask getReference again instead of taking the pool of the original (C177_copies_refuted). C177_copies_iff_partial: it holds exactly if getReference always gives the same answer, which the documentation does not ask for; so for the library's own pool (C177_static_pool). C177_each_way says which copies keep the pool in any case, C177_accepted which constructor is called."
  },
  {
   "property": "C178",
   "status": "partial",
   "theorems": [
    "C178_operations_refuted",
    "C178_operations_iff_partial",
    "C178_every_program_refuted",
    "C178_every_program_iff_partial",
    "C178_static_pool",
    "C178_no_swap",
    "C178_comparison_iff",
    "C178_elements",
    "C178_accounted",
    "C178_all_returned"
   ],
   "note": "REFUTED twice: the class declares no comparison, so containers cannot be assigned by moving (C178_operations_refuted; exact for every standard library: C178_operations_iff_partial); and containers that are swapped return blocks to wrong pools if getReference answers with different ones (C178_every_program_refuted; exact: C178_every_program_iff_partial). Proved for the library's own pool (C178_static_pool), for programs without swaps (C178_no_swap), and with a comparison of the user exactly if it tells pools apart (C178_comparison_iff); the elements arrive in any case (C178_elements), and no block is lost or returned twice (C178_accounted, C178_all_returned)."
  }
 ]
}