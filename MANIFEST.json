{
 "claims": [
  {
   "property": "C01",
   "status": "partial",
   "theorems": [
    "C01_filter_returns_truth_of_expression_partial",
    "C01_filter_short_circuits_partial",
    "C01_false_conjunct_never_matches_partial",
    "C01_nested_guard_refuted"
   ],
   "note": "partial: supported fragment S_CSup.sup, extended to && / || chains with one decided operand (S_Short.decided), the others arbitrary. Refuted: guards nested in the other operator (NULL met in an operand C skips), and the miscompilations listed in T_CcVals/T_CcAddr. The fragment includes negative values where they are tested for truth, compared with == / != (representations permitting), narrowed by a cast, offset by a constant, masked with a non-negative operand, or used in 64-bit + - * & | ^; demo_negative and demo_negarith show instances."
  },
  {
   "property": "C02",
   "status": "proved",
   "theorems": [
    "C02_alloc_returns_a_free_register",
    "C02_alloc_fails_iff_all_in_use",
    "C02_alloc_after_free_succeeds",
    "C02_free_changes_only_its_register",
    "C02_no_register_is_handed_out_twice",
    "C02_register_in_use_is_not_handed_out",
    "C02_marked_register_is_not_handed_out",
    "C02_mark_panics_iff_not_R0_to_R9"
   ],
   "note": "allocator as in register.go; all allocation states and all histories"
  },
  {
   "property": "C03",
   "status": "partial",
   "theorems": [
    "C03_saved_registers_survive_partial",
    "C03_live_register_is_lost_refuted",
    "C03_filter_loses_a_live_value_refuted"
   ],
   "note": "refuted by the code for allocation states with a gap (expr.go:216-263 saves R1..Rk, k=number used); proved for gap-free states"
  },
  {
   "property": "C04",
   "status": "proved",
   "theorems": [
    "C04_filter_code_terminates_inside_itself",
    "C04_length_bound_is_needed"
   ],
   "note": "all expressions, modes, states; C04_length_bound_is_needed shows the 16-bit offset wraps beyond"
  },
  {
   "property": "C05",
   "status": "partial",
   "theorems": [
    "C05_null_exit_does_not_match_partial",
    "C05_null_exit_of_or_matches_refuted",
    "C05_null_parameter_matches_refuted",
    "C05_every_or_following_null_matches_refuted",
    "C05_following_null_does_not_match_partial"
   ],
   "note": "partial: the NULL exit returns 0 for every filter not ending in a run-time ||; at the C level, an expression whose evaluation follows a NULL pointer (S_Null.hits_null) takes that exit. NULL met in the condition, in both branches, or in the selected branch of ?: is covered. Missing: see the theorem comment. Refuted for every run-time || and for a NULL parameter"
  },
  {
   "property": "C06",
   "status": "partial",
   "theorems": [
    "C06_signed_parameter_compares_unsigned_partial",
    "C06_int_against_negative_constant_refuted",
    "C06_negative_values_are_misjudged_refuted"
   ],
   "note": "Exact result of `x op k` for every parameter x of a 1,2,4,8-byte integer type and every literal k. Proved: agrees with C for non-negative operands, and ==/!= for every width but 4. Refuted as general: an int against a negative constant gives a fixed answer whatever x; relational operators are unsigned."
  },
  {
   "property": "C07",
   "status": "partial",
   "theorems": [
    "C07_constant_is_compared_in_full_iff_it_fits",
    "C07_wide_constants_are_truncated_refuted"
   ],
   "note": "Iff-characterisation: an unsigned parameter is compared with the full constant exactly when k < 2^31 or k >= 2^64-2^31; refuted otherwise (immediate truncated to int32)."
  },
  {
   "property": "C08",
   "status": "partial",
   "theorems": [
    "C08_bit_fields_read_their_bits_partial",
    "C08_wide_bit_fields_refuted"
   ],
   "note": "Proved for every bit-field below 32 bits reachable through a supported access path, constants within the field; refuted for 32 bits and wider (mask truncated to int32)."
  },
  {
   "property": "C09",
   "status": "proved",
   "theorems": [
    "C09_small_members_are_zero_extended"
   ],
   "note": "Members of 1,2,4,8 bytes reachable through a supported access path: neighbouring bytes never influence the comparison."
  },
  {
   "property": "C10",
   "status": "proved",
   "theorems": [
    "C10_address_of_path_is_base_plus_offsets",
    "C10_address_of_lvalue"
   ],
   "note": "All paths of members and literal indices from a pointer parameter, and any supported lvalue behind pointer hops; offsets below 2^15, indexed arrays not 1/2/4 bytes in total."
  },
  {
   "property": "C11",
   "status": "partial",
   "theorems": [
    "C11_index_compares_the_address_refuted",
    "C11_elements_are_not_read_refuted"
   ],
   "note": "Refuted: indexing never reads the element; it compares the address. The address of an element is right (C10)."
  },
  {
   "property": "C12",
   "status": "partial",
   "theorems": [
    "C12_folded_arithmetic_partial",
    "C12_folded_comparison_partial",
    "C12_folding_is_int64_arithmetic",
    "C12_folding_differs_refuted"
   ],
   "note": "proved except signed / % >> < <= > >= and shift counts >= 64, where the code really differs (refuted)"
  },
  {
   "property": "C13",
   "status": "partial",
   "theorems": [
    "C13_only_a_negative_constant_shift_panics",
    "C13_literal_shift_counts_never_panic_partial",
    "C13_negative_constant_shift_panics_refuted"
   ],
   "note": "exact characterisation of panics of the compiler (negative constant shift); that panic is real (refuted). Only panics of package cc are covered; the C parser is not modelled"
  },
  {
   "property": "C14",
   "status": "proved",
   "theorems": [
    "C14_radix_notations",
    "C14_bad_digits_are_rejected",
    "C14_every_number_is_read_back",
    "C14_minus_negates_modulo_2_64"
   ],
   "note": "number.go; digit strings of any length"
  },
  {
   "property": "C15",
   "status": "proved",
   "theorems": [
    "C15_stack_writes_stay_in_their_area",
    "C15_reservation_is_normalised"
   ],
   "note": "all stack stores of compiled filters"
  },
  {
   "property": "C16",
   "status": "partial",
   "theorems": [
    "C16_shown_from_own_registers_partial",
    "C16_after_16_byte_struct_refuted"
   ],
   "note": "Execution of the injected capture code composed with the Go decoder. Proved for every parameter list up to the first parameter of more than 8 bytes (that one included unless last), plus no panic and correct number of arguments for every list, and the return value when no parameter exceeds 8 bytes. Refuted: what follows a 16-byte struct (the decoder skips the second register without consuming its 8 bytes)."
  },
  {
   "property": "C17",
   "status": "proved",
   "theorems": [
    "C17_multi_probe_arguments_shown"
   ],
   "note": "Execution of the injected kprobe.multi capture composed with the decoder, all values. Parameters are shown by register number, so a function with a 16-byte struct parameter shows later ones shifted."
  },
  {
   "property": "C18",
   "status": "partial",
   "theorems": [
    "C18_shown_from_own_bytes_partial",
    "C18_hist_shifts_later_refuted"
   ],
   "note": "partial: correct up to and including the first sampled (hist/tdigest) expression, for expressions with a C value in the supported fragment or following a NULL pointer; refuted after a sampled one"
  },
  {
   "property": "C19",
   "status": "proved",
   "theorems": [
    "C19_injection_redefines_only_the_stub"
   ],
   "note": ""
  },
  {
   "property": "C20",
   "status": "partial",
   "theorems": [
    "C20_clearing_removes_stub_and_calls_partial",
    "C20_wrapper_loses_its_name_refuted"
   ],
   "note": "a function whose first instruction refers to the stub loses its name (refuted)"
  },
  {
   "property": "C21",
   "status": "partial",
   "theorems": [
    "C21_entry_exit_paired_partial",
    "C21_entry_exit_paired_fsession",
    "C21_rejected_inner_call_refuted",
    "C21_recursion_beyond_64_refuted"
   ],
   "note": "Session map: proved within its limits (64 nested calls of one function per task, 65536 pairs, no rejected call inside an accepted call of the same function); both limits shown necessary (refuted theorems). fsession cookies: proved without limits."
  },
  {
   "property": "C22",
   "status": "proved",
   "theorems": [
    "C22_session_table"
   ],
   "note": ""
  },
  {
   "property": "C23",
   "status": "partial",
   "theorems": [
    "C23_limit_partial",
    "C23_stops_at_once",
    "C23_no_limit_handles_all",
    "C23_huge_limit_refuted"
   ],
   "note": "Proved for limits below 2^63; a limit of 2^63 or more prints nothing (int64 conversion)."
  },
  {
   "property": "C24",
   "status": "partial",
   "theorems": [
    "C24_sample_value",
    "C24_positive_samples_counted_partial",
    "C24_zero_sample_refuted",
    "C24_row_labels_partial",
    "C24_rows_printed_partial",
    "C24_top_row_label_refuted"
   ],
   "note": ""
  },
  {
   "property": "C25",
   "status": "partial",
   "theorems": [
    "C25_one_line_per_stack_partial",
    "C25_counts_sum_partial",
    "C25_total_value",
    "C25_frame_named_root_refuted",
    "C25_file_partial"
   ],
   "note": "for stacks without a frame called root (refuted there)"
  },
  {
   "property": "C26",
   "status": "proved",
   "theorems": [
    "C26_find_returns_containing_symbol",
    "C26_next_returns_following_symbol",
    "C26_next_of_last_symbol_fails",
    "C26_out_of_range_fails",
    "C26_empty_table_crashes",
    "C26_addresses_parsed_exactly"
   ],
   "note": "find/next over every loadable listing; empty table panics (C26_empty_table_crashes)"
  },
  {
   "property": "C27",
   "status": "proved",
   "theorems": [
    "C27_duplicates_marked",
    "C27_lookup_by_name"
   ],
   "note": ""
  },
  {
   "property": "C28",
   "status": "proved",
   "theorems": [
    "C28_kaslr_invertible",
    "C28_kaslr_is_translation"
   ],
   "note": ""
  },
  {
   "property": "C29",
   "status": "partial",
   "theorems": [
    "C29_terminates_iff_known_prefixes_partial",
    "C29_unknown_prefix_hangs_refuted",
    "C29_argument_recovered",
    "C29_white_space_around_is_ignored",
    "C29_conflicts_refused"
   ],
   "note": "hangs on an unknown prefix (refuted); otherwise complete"
  },
  {
   "property": "C30",
   "status": "proved",
   "theorems": [
    "C30_terminates",
    "C30_depth"
   ],
   "note": ""
  },
  {
   "property": "C31",
   "status": "partial",
   "theorems": [
    "C31_all_found_partial",
    "C31_root_flag_partial",
    "C31_denied_partial",
    "C31_race_refuted",
    "C31_root_flag_refuted"
   ],
   "note": "Proved for race-free schedules; refuted in general: the entry another worker has inserted but not yet filled is dropped, losing functions within the limit; a root first met as a callee is not marked as root."
  },
  {
   "property": "C32",
   "status": "proved",
   "theorems": [
    "C32_callee_is_cpu_target",
    "C32_only_calls_decoded"
   ],
   "note": ""
  },
  {
   "property": "C33",
   "status": "proved",
   "theorems": [
    "C33_branches_in_order",
    "C33_kept_branches"
   ],
   "note": ""
  },
  {
   "property": "C34",
   "status": "partial",
   "theorems": [
    "C34_old_or_complete_partial",
    "C34_always_loads_partial",
    "C34_power_loss_refuted",
    "C34_reused_name_refuted"
   ],
   "note": "Proved for every interleaving of processes, failures and kills provided no temp name is chosen twice and power fails only once the file is on disk; both provisos are necessary (refuted without them)."
  },
  {
   "property": "C35",
   "status": "proved",
   "theorems": [
    "C35_string_is_longest_nul_free_prefix"
   ],
   "note": ""
  },
  {
   "property": "C36",
   "status": "partial",
   "theorems": [
    "C36_acceptance",
    "C36_modes_in_force",
    "C36_multi_split",
    "C36_every_kfunc_traced_once",
    "C36_default_without_kfuncs_refuted",
    "C36_multi_with_global_graph_refuted"
   ],
   "note": "default mode without -k is entry, (m) with global -g is accepted (refuted); acceptance otherwise exact"
  },
  {
   "property": "C37",
   "status": "proved",
   "theorems": [
    "C37_flags_mean_the_same",
    "C37_sizes_mean_the_same",
    "C37_table_is_complete",
    "C37_event_flag_masks"
   ],
   "note": "Both sides of the configuration struct: Go's bit setting and serialisation, C's bit-field reads."
  },
  {
   "property": "C38",
   "status": "partial",
   "theorems": [
    "C38_covering_line_partial",
    "C38_outside_no_answer",
    "C38_before_first_line_crashes_refuted",
    "C38_any_order"
   ],
   "note": "An address before the first line info of the function crashes the lookup (refuted by a witness)."
  },
  {
   "property": "C39",
   "status": "proved",
   "theorems": [
    "C39_tailcall_probe_total_and_exact",
    "C39_endbr_recognised"
   ],
   "note": ""
  },
  {
   "property": "C40",
   "status": "proved",
   "theorems": [
    "C40_guess_bounded",
    "C40_user_size_wins",
    "C40_trim_only_padding"
   ],
   "note": ""
  },
  {
   "property": "C41",
   "status": "partial",
   "theorems": [
    "C41_skb_tuple_partial",
    "C41_xdp_tuple_partial",
    "C41_xdp_vlan_tuple_partial",
    "C41_long_header_reads_elsewhere",
    "C41_long_header_refuted",
    "C41_other_packets_show_stale_refuted",
    "C41_other_protocols_show_stale_refuted"
   ],
   "note": "partial: proved for headers of 5..7 words and TCP/UDP/ICMP; refuted for headers of 8+ words (3-bit mask of IHL) and for packets that are not IPv4 TCP/UDP/ICMP (stale ring-buffer bytes are shown)"
  },
  {
   "property": "C42",
   "status": "partial",
   "theorems": [
    "C42_xdp_actions_named",
    "C42_tc_actions_named_partial",
    "C42_tc_unspec_refuted"
   ],
   "note": ""
  },
  {
   "property": "C43",
   "status": "proved",
   "theorems": [
    "C43_selected_iff",
    "C43_traced_iff"
   ],
   "note": "Exact characterisation, for every glob matcher and symbol table."
  },
  {
   "property": "C44",
   "status": "partial",
   "theorems": [
    "C44_names",
    "C44_total",
    "C44_expressions",
    "C44_empty_call_refuted"
   ],
   "note": "Proved for everything but calls without arguments, on which the code crashes (refuted)."
  },
  {
   "property": "C45",
   "status": "partial",
   "theorems": [
    "C45_graph_depth_partial",
    "C45_fsession_roots_refuted",
    "C45_deep_stack_refuted"
   ],
   "note": "partial: depth proved for kprobe/fentry roots within the session map limit and STACK_DEPTH; refuted for fsession roots and for deep stacks"
  },
  {
   "property": "C46",
   "status": "proved",
   "theorems": [
    "C46_cpu_mask",
    "C46_mask_of_largest",
    "C46_cpu_mask_large_diverges"
   ],
   "note": ""
  },
  {
   "property": "C47",
   "status": "proved",
   "theorems": [
    "C47_batched_probe_is_filter"
   ],
   "note": ""
  },
  {
   "property": "C48",
   "status": "partial",
   "theorems": [
    "C48_read_size",
    "C48_read_size_wrap_refuted"
   ],
   "note": ""
  },
  {
   "property": "C49",
   "status": "partial",
   "theorems": [
    "C49_durations_partial",
    "C49_durations_fsession_partial",
    "C49_long_calls_refuted"
   ],
   "note": "Exact below 2^32 ns; longer calls are shown modulo 4.29 s and wrongly dropped by the threshold (refuted)."
  },
  {
   "property": "C50",
   "status": "partial",
   "theorems": [
    "C50_events_never_crash_partial",
    "C50_graph_event_on_plain_session_refuted"
   ],
   "note": "Modelled panics: lastTstamp index. Safe when graph events refer to graph-mode sessions; crash shown otherwise."
  },
  {
   "property": "C51",
   "status": "proved",
   "theorems": [
    "C51_graph_group"
   ],
   "note": ""
  },
  {
   "property": "C52",
   "status": "partial",
   "theorems": [
    "C52_vxlan_inner_tuple_partial",
    "C52_vxlan_inner_tuple_xdp_partial",
    "C52_other_packets_unaffected",
    "C52_outer_options_refuted"
   ],
   "note": "partial: proved for outer headers without options; refuted with options"
  },
  {
   "property": "C53",
   "status": "proved",
   "theorems": [
    "C53_function_records_decode",
    "C53_multi_records_decode",
    "C53_lbr_and_stack",
    "C53_probes",
    "C53_multi_probes",
    "C53_probes_say_what_was_asked",
    "C53_multi_probes_say_what_was_asked"
   ],
   "note": "fentry/fexit/fsession/tracepoint and kprobe.multi records: emitted bytes decoded by the Go handler into the same header fields and sections; LBR and stack ids."
  },
  {
   "property": "C54",
   "status": "partial",
   "theorems": [
    "C54_gcc_clones",
    "C54_llvm_clones_partial",
    "C54_llvm_ambiguous_refuted"
   ],
   "note": "Refuted part: two LLVM clones of one name, the choice follows Go's random map order."
  },
  {
   "property": "C55",
   "status": "proved",
   "theorems": [
    "C55_instruction_group"
   ],
   "note": "Any interleaving; unknown instruction addresses are left out."
  },
  {
   "property": "C56",
   "status": "proved",
   "theorems": [
    "C56_output_functions_show_requested_bytes",
    "C56_packet_protocols",
    "C56_number_pointers",
    "C56_operand_types"
   ],
   "note": "request table in S_OutArg; capture and decode of the bytes is C18"
  },
  {
   "property": "C57",
   "status": "partial",
   "theorems": [
    "C57_only_empty_calls_crash_partial",
    "C57_empty_call_crashes_refuted"
   ],
   "note": "only calls without arguments crash (refuted)"
  },
  {
   "property": "C58",
   "status": "proved",
   "theorems": [
    "C58_session_calls_patched"
   ],
   "note": "for functions whose first instruction is not itself a session call"
  },
  {
   "property": "C59",
   "status": "partial",
   "theorems": [
    "C59_program_recovered",
    "C59_kfunc_prefix_hangs_refuted"
   ],
   "note": "hangs on an unknown prefix (refuted)"
  },
  {
   "property": "C60",
   "status": "partial",
   "theorems": [
    "C60_right_line_partial",
    "C60_other_boot_refuted",
    "C60_no_symbol_crashes_refuted",
    "C60_module_read_once"
   ],
   "note": "Proved within one boot; refuted across boots (cache keyed by run-time address only) and for an address without symbol (nil dereference)."
  },
  {
   "property": "C61",
   "status": "partial",
   "theorems": [
    "C61_returns",
    "C61_begun_later_finds_partial",
    "C61_woken_too_early_refuted",
    "C61_failure_blocks_for_ever_refuted"
   ],
   "note": "Look-ups begun after create() ended are right; woken early they miss; when create() fails they block for ever."
  },
  {
   "property": "C62",
   "status": "partial",
   "theorems": [
    "C62_waiting_sees_everything",
    "C62_attach_after_parsing_partial",
    "C62_attach_first_crashes_refuted",
    "C62_unparsed_program_refuted"
   ],
   "note": "Waiting readers see everything; attaching does not wait and crashes if it runs first; an unparsable program crashes the parser."
  },
  {
   "property": "C63",
   "status": "partial",
   "theorems": [
    "C63_looked_up_is_kept_partial",
    "C63_other_process_refuted"
   ],
   "note": "One process loses at most 29 entries; concurrent processes erase each other's."
  },
  {
   "property": "C64",
   "status": "partial",
   "theorems": [
    "C64_each_btf_once_partial",
    "C64_vmlinux_listed_refuted",
    "C64_modules_partial",
    "C64_options_hide_module_refuted"
   ],
   "note": "Right unless vmlinux itself is listed (crash, or searched twice); a pattern with options never pulls its module in."
  },
  {
   "property": "C65",
   "status": "partial",
   "theorems": [
    "C65_attached_partial",
    "C65_own_pattern_partial",
    "C65_other_pattern_refuted",
    "C65_listed_twice_refuted"
   ],
   "note": "All and only the attachable functions are attached; flags and filter are the representative's, refuted for functions grouped across patterns, and for doubly matched functions."
  },
  {
   "property": "C66",
   "status": "partial",
   "theorems": [
    "C66_multi_exit_unfiltered_refuted",
    "C66_first_expression",
    "C66_later_ignored_refuted"
   ],
   "note": "Exactly the first expression about a function filters it; several expressions are not combined."
  },
  {
   "property": "C67",
   "status": "partial",
   "theorems": [
    "C67_asked_for_partial",
    "C67_ids_partial",
    "C67_all_traced_partial",
    "C67_pkt_dropped_refuted",
    "C67_overridden_refuted",
    "C67_star_drops_refuted"
   ],
   "note": "Sound always; complete for id-only flags and for distinct selectors without '*'; refuted otherwise."
  },
  {
   "property": "C68",
   "status": "partial",
   "theorems": [
    "C68_values_partial",
    "C68_pointer_partial",
    "C68_bool_partial",
    "C68_enum_partial",
    "C68_bool_refuted",
    "C68_bool_member_refuted",
    "C68_enum_refuted",
    "C68_negative_enum_refuted",
    "C68_small_enum_refuted",
    "C68_bitfield_refuted",
    "C68_empty_member_refuted"
   ],
   "note": "Proved for integers, pointers and structs of them; bools and enums only when the other bytes of the word are zero; refuted otherwise (bool members, 4-byte enums, negative enumerators, other enum sizes, bit-fields, empty trailing members)."
  },
  {
   "property": "C69",
   "status": "partial",
   "theorems": [
    "C69_own_stack_partial",
    "C69_own_or_none_partial",
    "C69_second_event_refuted",
    "C69_foreign_stack_refuted",
    "C69_dropped_event_refuted",
    "C69_no_trampoline_refuted"
   ],
   "note": "Proved for histories in which waiting events never share a bucket. Refuted otherwise: the first event deletes the entry that the second one needs (no stack, or the stack of a later event), dropped events block their bucket, and kprobe.multi stacks (no trampoline frame) are never shown without -v."
  },
  {
   "property": "C70",
   "status": "proved",
   "theorems": [
    "C70_table",
    "C70_empty"
   ],
   "note": "The t-digest library is outside the model: the property starts from the centroids it visits."
  },
  {
   "property": "C71",
   "status": "partial",
   "theorems": [
    "C71_read_exact_partial",
    "C71_too_large_refused",
    "C71_full_size_refuted",
    "C71_unreadable_refuted",
    "C71_buffer"
   ],
   "note": "Partial: up to 65528 bytes of readable memory. Refuted for the largest allowed sizes and for unreadable memory."
  },
  {
   "property": "C72",
   "status": "partial",
   "theorems": [
    "C72_by_name_partial",
    "C72_by_address",
    "C72_hex_name_refuted"
   ],
   "note": "Partial: names that do not read as hexadecimal numbers with underscores. Refuted for d_add and the like."
  },
  {
   "property": "C73",
   "status": "proved",
   "theorems": [
    "C73_listing",
    "C73_program_listing"
   ],
   "note": "The decoder (capstone) is a parameter: any function that takes between one byte and all bytes left."
  },
  {
   "property": "C74",
   "status": "partial",
   "theorems": [
    "C74_traced_instructions_partial",
    "C74_short_function_refuted",
    "C74_long_function_refuted"
   ],
   "note": "Partial: functions with at least four decodable instructions, up to 4096 bytes."
  },
  {
   "property": "C75",
   "status": "partial",
   "theorems": [
    "C75_all_found",
    "C75_unknown_is_error",
    "C75_long_name_refuted",
    "C75_vmlinux_table"
   ],
   "note": "Refuted only for names of 64 characters or more (the C code says the longest has 40)."
  },
  {
   "property": "C76",
   "status": "partial",
   "theorems": [
    "C76_modules_found",
    "C76_too_many_modules",
    "C76_modules_probed",
    "C76_kernel_first",
    "C76_module_added_partial",
    "C76_nothing_else",
    "C76_same_name_refuted"
   ],
   "note": "Partial: a name that exactly one module has. Refuted when two modules share a name."
  },
  {
   "property": "C77",
   "status": "proved",
   "theorems": [
    "C77_selected",
    "C77_added_to_functions",
    "C77_identifier_found"
   ],
   "note": "Tracepoint functions are assumed to have the leading void *__data parameter (the slice expression panics otherwise)."
  },
  {
   "property": "C78",
   "status": "partial",
   "theorems": [
    "C78_kept_iff_partial",
    "C78_without_endbr_refuted",
    "C78_own_call_refuted"
   ],
   "note": "Partial: refuted for functions without endbr64 in a kernel that uses it, and for functions without nop that begin with a call or jump of their own."
  },
  {
   "property": "C79",
   "status": "proved",
   "theorems": [
    "C79_return_sites",
    "C79_call_mode_none"
   ],
   "note": "x86; decoder and symbol table are parameters; the extent of a trampoline is that of C40 (next symbol, at most 4096 bytes)."
  },
  {
   "property": "C80",
   "status": "partial",
   "theorems": [
    "C80_traced_once",
    "C80_shown_partial",
    "C80_session_entry_refuted"
   ],
   "note": "Partial: entries of session programs. Refuted: these are always shown without arguments (ArgsEnSz is never set)."
  },
  {
   "property": "C81",
   "status": "partial",
   "theorems": [
    "C81_members",
    "C81_negative_enum_refuted",
    "C81_order_refuted",
    "C81_array_semicolon_refuted"
   ],
   "note": "Members proved in full for records laid out on byte boundaries. Refuted: negative enumerators, order of functions among types, semicolon after arrays. The C text of leaf types and btf.Sizeof are parameters; padding is not modelled."
  },
  {
   "property": "C82",
   "status": "partial",
   "theorems": [
    "C82_tree_partial",
    "C82_disassembled_once",
    "C82_disassembled_reachable",
    "C82_interrupted",
    "C82_interrupt_refuted",
    "C82_disasm_bytes_refuted",
    "C82_mark_refuted"
   ],
   "note": "partial: for functions disassembled over their whole length. Refuted with --disasm-bytes (memo by address only), for interrupts (all further calls of the current functions are still printed) and for the traceable mark of BPF functions. Not modelled: that the table of BPF functions is filled concurrently."
  },
  {
   "property": "C83",
   "status": "partial",
   "theorems": [
    "C83_packet_filter_partial",
    "C83_no_packet_passes",
    "C83_same_packet",
    "C83_const_packet_refuted",
    "C83_behind_struct_refuted",
    "C83_bad_expression_refuted",
    "C83_bad_expression_reported"
   ],
   "note": "partial: for parameters declared without a qualifier behind the pointer and preceded by 8-byte parameters. Refuted: const packets are not filtered, a packet behind a 16-byte struct is read from the wrong slot, a rejected expression is not reported for BPF programs."
  },
  {
   "property": "C84",
   "status": "proved",
   "theorems": [
    "C84_filter_program",
    "C84_filter_cleared",
    "C84_output_program",
    "C84_output_cleared"
   ],
   "note": "for programs in which no function begins with a call (C20)."
  },
  {
   "property": "C85",
   "status": "partial",
   "theorems": [
    "C85_bpf_position",
    "C85_kernel_position_partial",
    "C85_without_debug_data",
    "C85_build_directory",
    "C85_outside_symbols_crashes_refuted",
    "C85_before_first_line_crashes_refuted"
   ],
   "note": "partial: addresses between the first and the last listed symbol, cache of this boot. Refuted outside the listed symbols (crash when there is a line) and in a BPF function before its first line (crash)."
  },
  {
   "property": "C86",
   "status": "partial",
   "theorems": [
    "C86_own_branches_partial",
    "C86_interrupted_run_refuted",
    "C86_erased_refuted",
    "C86_same_session_refuted"
   ],
   "note": "partial: no overlapping runs on a CPU, distinct session numbers among waiting events, no dropped events with branches. Refuted for interrupted runs (foreign or no branches) and equal session numbers."
  },
  {
   "property": "C87",
   "status": "partial",
   "theorems": [
    "C87_usual_places",
    "C87_given_directory",
    "C87_module_file",
    "C87_unreadable_directory_refuted"
   ],
   "note": "refuted part: a directory that cannot be read hides module files visited after it."
  },
  {
   "property": "C88",
   "status": "partial",
   "theorems": [
    "C88_verdict_partial",
    "C88_trampoline_before_refuted",
    "C88_fixed_only_if_seen",
    "C88_hidden_code",
    "C88_left_out",
    "C88_jump_mode"
   ],
   "note": "Right when the trampoline lies after the program; refuted when it lies before (the displacement is zero-extended, so 4 GiB are added). The decoder is abstract (sound: takes at least one byte and no more than there are)."
  },
  {
   "property": "C89",
   "status": "partial",
   "theorems": [
    "C89_single_mode",
    "C89_wanted",
    "C89_session_mode",
    "C89_two_programs_partial",
    "C89_instructions_partial",
    "C89_no_instructions_refuted"
   ],
   "note": "Two-program mode within the limits of the session map (C21); refuted: on kernels with fsession no instruction event is ever sent (C45 has the same for graphs). The ring buffer never overflows in the model."
  },
  {
   "property": "C90",
   "status": "partial",
   "theorems": [
    "C90_programs",
    "C90_kernel_functions_partial",
    "C90_kernel_functions_single_name",
    "C90_other_name_refuted",
    "C90_tracepoint_numbers",
    "C90_numbering_ends",
    "C90_tracepoints_partial",
    "C90_tracepoint_collision_refuted",
    "C90_multi",
    "C90_graph_programs",
    "C90_graph_kernel_functions",
    "C90_unknown_address",
    "C90_header"
   ],
   "note": "Partial: the label is a name of the function, not always the one asked for (refuted for aliases); a tracepoint's random number is only checked against kernel functions, so it may collide with a BPF function's address (refuted)."
  },
  {
   "property": "C91",
   "status": "partial",
   "theorems": [
    "C91_type_readable_partial",
    "C91_prototype_readable_partial",
    "C91_lookalikes_refuted",
    "C91_shown",
    "C91_listed",
    "C91_same_every_time",
    "C91_text",
    "C91_parameter_list",
    "C91_program_line",
    "C91_modules_partial",
    "C91_listed_modules_ignored_refuted",
    "C91_two_modules_refuted"
   ],
   "note": "Partial: types without qualified pointers/typedefs, arrays, floats and type tags; refuted for const pointers, qualified typedefs, doubles. ShowFuncProto searches other modules than tracing does, and panics when two modules sort before vmlinux (refuted)."
  },
  {
   "property": "C92",
   "status": "partial",
   "theorems": [
    "C92_success",
    "C92_nothing_refused",
    "C92_have_tracing",
    "C92_failure",
    "C92_terminates",
    "C92_both_ends_refuted",
    "C92_error_detaches_refuted"
   ],
   "note": "Proved for every schedule and every sequence of kernel answers. Refuted: a function asked for at both ends may end up seen at one end only, reported as success; errors raised before errg.Wait return without Close. The contents of the programs are other properties' subject."
  },
  {
   "property": "C93",
   "status": "partial",
   "theorems": [
    "C93_lost_events_map",
    "C93_lost_events_cookie",
    "C93_output_is_part",
    "C93_sessions_left",
    "C93_memory_freed_refuted",
    "C93_reused_id_refuted"
   ],
   "note": "Lost events are modelled as an arbitrary mask over the submitted events. C93_memory_freed_refuted: a session whose exit event is lost is never removed from the Go table. C93_reused_id_refuted: after a lost exit, a later call that draws the same random id gets paired with the stale entry."
  },
  {
   "property": "C94",
   "status": "partial",
   "theorems": [
    "C94_clean_exit",
    "C94_ends_by_itself",
    "C94_failure",
    "C94_crash",
    "C94_statuses",
    "C94_terminates",
    "C94_early_signal",
    "C94_signal_kills_iff_not_handled",
    "C94_held",
    "C94_handed_back_refuted",
    "C94_flame_graph_saved_refuted"
   ],
   "note": "C94_handed_back_refuted: a failing Run or check ends in log.Fatalf, which skips main's deferred calls (the kernel detaches when the process dies). C94_flame_graph_saved_refuted: defer fg.Save drops the error, status stays 0. Acquire/release calls themselves are assumed to succeed."
  },
  {
   "property": "C95",
   "status": "partial",
   "theorems": [
    "C95_config",
    "C95_submits",
    "C95_graph_records_partial",
    "C95_record_end_refuted",
    "C95_unknown",
    "C95_shown_partial",
    "C95_insn_records",
    "C95_function_records"
   ],
   "note": "C95_record_end_refuted: event.Length includes the 32-byte header, so data[32:32+Length] needs 32 bytes of capacity beyond the record; with less, bpfsnoop panics on the first graph record. _partial theorems assume that capacity (it depends on the forked ebpf reader, which is not in the repository)."
  },
  {
   "property": "C96",
   "status": "partial",
   "theorems": [
    "C96_distinct_ids_paired",
    "C96_shared_id_paired_partial",
    "C96_idle_cpus_mispaired_refuted",
    "C96_idle_cpus_paired_fsession"
   ],
   "note": "C96_idle_cpus_mispaired_refuted: the session key is pid_tgid, which is 0 on every idle CPU; two interrupts on idle CPUs inside the same function exchange sessions. _partial: contexts sharing an id must not be inside the same function at once. C96_distinct_ids_paired and the fsession theorem have no such condition."
  },
  {
   "property": "C97",
   "status": "partial",
   "theorems": [
    "C97_probes_as_if_atomic",
    "C97_probes_never_stuck",
    "C97_concurrent_tasks_paired_partial",
    "C97_missed_probe_mispairs_refuted"
   ],
   "note": "_partial: no probe missed (kernel's recursion guard). C97_missed_probe_mispairs_refuted: a task preempted in its exit probe makes another task's exit probe on that CPU be missed, whose stale session is then paired with the outer return. Interrupts in the middle of a probe are not modelled."
  },
  {
   "property": "C98",
   "status": "partial",
   "theorems": [
    "C98_ids_equal_iff",
    "C98_calls_told_apart",
    "C98_kmulti_recursion_refuted",
    "C98_zero_id_refuted",
    "C98_caller_frame_x86_partial",
    "C98_unreadable_frame",
    "C98_other_exit_program_refuted",
    "C98_arm64_never_found",
    "C98_caller_frame_arm64_partial",
    "C98_arm64_padding_refuted"
   ],
   "note": "C98_kmulti_recursion_refuted: with kprobe.multi the low half is the function address, so recursion relies on the random half only. C98_zero_id_refuted: an id of 0 is possible and means no session. C98_other_exit_program_refuted and C98_arm64_padding_refuted: the frame slot is guessed from bpfsnoop's own mode; C98_arm64_never_found: the arm64 scan tests the helper's return code, not the word read."
  },
  {
   "property": "C99",
   "status": "partial",
   "theorems": [
    "C99_branch_types",
    "C99_known_types_accepted",
    "C99_unknown_type_opens_nothing",
    "C99_one_event_per_cpu",
    "C99_opened_when_possible",
    "C99_close_closes_all",
    "C99_failure_leaves",
    "C99_failed_open_leaks_refuted",
    "C99_own_buffer",
    "C99_mask_is_found",
    "C99_mask_is_a_word",
    "C99_mask_bounds_iff_power_of_two",
    "C99_mask_out_of_bounds_refuted",
    "C99_mask_never_ends_refuted",
    "C99_mask_of_largest",
    "C99_mask_smallest",
    "C99_depth_read",
    "C99_depth_unreadable",
    "C99_depth_missing"
   ],
   "note": "C99_failed_open_leaks_refuted: the loop's err shadows the one the deferred Close looks at. C99_mask_out_of_bounds_refuted: CPU_MASK is rounded up to a power of two, the map is not (kernels whose verifier does not bound bpf_get_smp_processor_id then see an access past the map). C99_mask_never_ends_refuted: mathx.Mask loops for ever between 2^62 and MaxInt (not reachable from CPU counts)."
  },
  {
   "property": "C100",
   "status": "partial",
   "theorems": [
    "C100_passes_only_on_match",
    "C100_lines_written",
    "C100_fails_with_reason",
    "C100_returns_partial",
    "C100_reader_stops_iff",
    "C100_nothing_lost_before_wait",
    "C100_many_matches_hang_refuted",
    "C100_two_ready_lines_panic_refuted",
    "C100_output_lost_refuted",
    "C100_helper_killed",
    "C100_helper_outlives_refuted",
    "C100_file",
    "C100_comments_ignored",
    "C100_pass_is_all",
    "C100_cases_complete",
    "C100_default_timeout",
    "C100_separator_last_fails",
    "C100_directory",
    "C100_no_such_name_passes_refuted",
    "C100_occurs"
   ],
   "note": "_partial: returns under every schedule when at most ten lines match and one says running. Refuted: C100_many_matches_hang_refuted, C100_two_ready_lines_panic_refuted, C100_output_lost_refuted, C100_helper_outlives_refuted, C100_no_such_name_passes_refuted."
  },
  {
   "property": "C101",
   "status": "partial",
   "theorems": [
    "C101_member",
    "C101_program",
    "C101_patterns",
    "C101_names",
    "C101_graph",
    "C101_no_abort_partial",
    "C101_abort",
    "C101_large_argument_refuted",
    "C101_alias_refuted"
   ],
   "note": "refuted parts: a callee with a by-value argument over 16 bytes aborts the run (even if excluded); a requested function with an alias listed after it is dropped"
  },
  {
   "property": "C102",
   "status": "partial",
   "theorems": [
    "C102_event_same_text_partial",
    "C102_parameter_colours",
    "C102_frame_same_text_iff",
    "C102_event_line_text",
    "C102_expressions_line_partial",
    "C102_histograms_alone",
    "C102_stray_comma_refuted",
    "C102_insn_same_text",
    "C102_disasm_same_text",
    "C102_read_same_text",
    "C102_graph_indentation",
    "C102_branch_table_aligned",
    "C102_long_name_refuted",
    "C102_graph_dots_refuted"
   ],
   "note": "Colours add nothing but colour except for two deviations, both refuted: stack frames with a function name more than 50 characters longer than its offset get extra blanks (a negative width in %-*s), and graph lines are indented with dots instead of blanks. Branch tables are aligned for up to 100 branches. Texts containing an ESC of their own, and names outside ASCII, are excluded by hypothesis."
  },
  {
   "property": "C103",
   "status": "partial",
   "theorems": [
    "C103_values_shown_partial",
    "C103_events_of_a_call",
    "C103_exit_arguments_refuted"
   ],
   "note": "Entry events show the arguments of the call, exit events the return value. Refuted: exit events show in place of the arguments whatever the argument registers hold when the function returns. That the registers at return are unrelated to the arguments is a fact about kretprobes that the model takes as: they are arbitrary. Also C66_multi_exit_unfiltered_refuted: with -m exit, multi mode ignores --filter-arg."
  },
  {
   "property": "C104",
   "status": "partial",
   "theorems": [
    "C104_branches_ready_partial",
    "C104_kernel_suffices",
    "C104_lines",
    "C104_features_known",
    "C104_starts",
    "C104_tracepoint_branches_refuted",
    "C104_target_stacks_refuted",
    "C104_branches_not_asked_refuted"
   ],
   "note": "Functions and programs: proved; refuted for tracepoints with (l) (branch recording is not switched on), for targets with (s) on kernels without bpf_get_stackid (only the global options are checked), and \"(l)\" in other parts of an argument demands branch recording. C104_starts shows that nothing else is demanded."
  },
  {
   "property": "C105",
   "status": "partial",
   "theorems": [
    "C105_read_shows_value_partial",
    "C105_not_triggered",
    "C105_heap_address_refuted",
    "C105_constant_refuted"
   ],
   "note": "Proved for expressions that are not compile-time constants and whose literal addresses are sign-extended 32-bit numbers (kernel image, modules); refuted for other literal addresses (heap: truncated) and for constants (never put in a register). The supported fragment of C01 now includes image addresses."
  },
  {
   "property": "C106",
   "status": "partial",
   "theorems": [
    "C106_crc_is_remainder",
    "C106_remainder_unique",
    "C106_bursts_detected",
    "C106_source_ports_differ",
    "C106_source_octets",
    "C106_packets_partial",
    "C106_whole_address_refuted",
    "C106_options_refuted",
    "C106_not_ip_refuted"
   ],
   "note": "Hash = CRC: proved for all inputs; packets: proved for IPv4 without options; refuted: IP options, frames that are not IPv4, and the last two octets of the source address do not enter the hash (C106_source_octets says exactly which do)."
  },
  {
   "property": "C107",
   "status": "partial",
   "theorems": [
    "C107_unused_left_out_partial",
    "C107_every_program_partial",
    "C107_still_links",
    "C107_again_nothing",
    "C107_all_given_untouched"
   ],
   "note": "partial only because of a function whose first instruction calls a stub (C20's refutation); everything else unconditional"
  },
  {
   "property": "C108",
   "status": "partial",
   "theorems": [
    "C108_context_types_partial",
    "C108_fails_exactly_without_struct",
    "C108_same_packet_parameter",
    "C108_no_context_left_partial",
    "C108_const_context_refuted"
   ],
   "note": "partial: parameters that point to a const/typedef context keep the context's layout (refuted)"
  },
  {
   "property": "C109",
   "status": "proved",
   "theorems": [
    "C109_reader_contract",
    "C109_inside_is_read",
    "C109_reads_everything"
   ],
   "note": "full io.ReaderAt contract"
  },
  {
   "property": "C110",
   "status": "proved",
   "theorems": [
    "C110_kallsyms_text_read",
    "C110_address_resolved_from_text",
    "C110_available_functions_read",
    "C110_available_functions_no_crash",
    "C110_programs_of_process",
    "C110_no_line_lost",
    "C110_unreadable_refused"
   ],
   "note": "white space is ASCII white space (the specification's names are printable ASCII, for which that is exact); I/O errors are not modelled"
  },
  {
   "property": "C111",
   "status": "partial",
   "theorems": [
    "C111_line_tells_the_call_partial",
    "C111_held_back_iff_entry_and_exit_traced"
   ],
   "note": "partial: parameters of more than 8 bytes and structs/unions (C16, C68) and XDP/SchedCLS results (C42) are excluded"
  },
  {
   "property": "C112",
   "status": "partial",
   "theorems": [
    "C112_line_tells_the_registers_partial",
    "C112_held_back_without_graph_partial",
    "C112_graph_option_prints_nothing_refuted"
   ],
   "note": "partial: structs and unions are excluded (C68); refuted with the global graph option: entry-only or exit-only (m) functions print nothing; the registers of an exit event are those at return (C103)"
  },
  {
   "property": "C113",
   "status": "proved",
   "theorems": [
    "C113_modules",
    "C113_anchors",
    "C113_only_these_names"
   ],
   "note": ""
  },
  {
   "property": "C114",
   "status": "proved",
   "theorems": [
    "C114_integer_types",
    "C114_void",
    "C114_type_names",
    "C114_struct_tags"
   ],
   "note": "That the kernel's BTF has the integer types of the table (u16, s64, ...) with these sizes is a hypothesis (kernel_types)."
  },
  {
   "property": "C115",
   "status": "partial",
   "theorems": [
    "C115_enumerator_is_its_number",
    "C115_unknown_name_refused_partial",
    "C115_name_alone_is_no_filter",
    "C115_unknown_name_beside_a_constant_refused",
    "C115_unknown_name_accepted_refuted"
   ],
   "note": "Partial: beside a constant, `NAME && 0` and `NAME || 1` are accepted for any NAME (C115_unknown_name_accepted_refuted)."
  }
 ]
}