# Formal model of bpfsnoop in Rocq (Coq 8.16.1)

Source: /repo (bpfsnoop/bpfsnoop at the pinned commit), read as text; nothing was built or run.

## 1. Layout

`rocq/theories/` (logical name `Verif`).  For each area there are three kinds of file:

* `M_*.v`  – the model: executable Gallina functions, each with a comment citing the Go/C file and
  lines it models and the simplifications made.  No proofs.
* `S_*.v`  – the specification: small independent definitions (reference semantics, predicates)
  that do not mention the model's helpers.  (Where the specification is one or two lines it is
  written in the theorem itself.)
* `P_*.v`  – proofs.
* `T_*.v`  – the property theorems only: `Theorem C.. : statement. Proof. exact lemma. Qed.`,
  non-vacuity `Example`s and `Print Assumptions`.

When the faithful model violates the English property, the theorem is named `..._refuted` and
states the violation on a concrete witness (`exists`), together with the strongest positive
theorem on the part that does hold (`..._partial`).

## 2. Plan per property

| id | what is modelled | how proved |
|----|------------------|------------|
| C01 | eBPF ISA interpreter; expression compiler `evaluate`/`materialize`/`CompileFilterExpr` over a C AST and BTF types; reference C semantics | induction over the expression: simulation between emitted code and reference semantics (partial: fragment stated in the theorem; refutations for what is outside) |
| C02 | `RegisterAllocator` | direct case analysis over the 10-entry table, induction over operation sequences |
| C03 | `push/popUsedCallerSavedRegsN` + helper clobbering | refuted (witness state) + positive theorem for allocation states in which it works |
| C04 | all of `evaluate` emission | invariant over emission: every jump offset is forward and inside; machine run terminates |
| C05 | label-exit placement; `hits_null` (S_Null.v): which expressions follow a NULL pointer | theorem for operators not ending in a run-time `||`; induction over the expression that a followed NULL takes the exit; refutation for `||` |
| C06 | comparison emission | refuted |
| C07 | immediate encoding | refuted + partial for int32-range constants |
| C08 | bit-field extraction | partial (width < 32) + refuted |
| C09 | width adjustment | theorem for 1/2/4/8-byte loads |
| C10 | offset chains | theorem by induction over the chain |
| C11 | indexing | refuted (element is never loaded) + what holds: address |
| C12 | constant folding | theorem per operator modulo 2^64 (+ refuted for signed div/mod/shift) |
| C13 | panics as an explicit outcome | refuted for negative constant shifts; theorem: only source of panic |
| C14 | `parseUnsigned`/`parseNumber` | round-trip theorem with digit printers |
| C15 | stack slots | arithmetic theorem over allocation states |
| C16 | `genOutputFuncArgs` executed by the ISA model vs. `outputFnArgs` | refuted for 16-byte struct args; theorem without them |
| C17 | `genOutputKmultiFnArgs` vs `outputFnArgsKmulti` | theorem |
| C18 | compiler, capture code, eBPF run and decoder composed (M_OutArg) | simulation (C01, C05 lemmas) per expression, induction over the list, decoder inverse; refuted after hist/tdigest |
| C19,C20 | instruction-list surgery (M_Asm) against a program as a list of named functions (S_Asm) | list theorems; C20 refuted for a function whose first instruction is the call |
| C21 | BPF session stack | refinement to a stack up to depth limit, refuted beyond |
| C22 | Go session map | refinement to finite map |
| C23 | event loop | induction over the event stream |
| C24 | histogram | refuted for 0, theorem for positive samples |
| C25 | the tree of frames and its folding (M_Flame) against weights per stack (S_Flame) | invariant over samples; refuted for a frame called "root" |
| C26,C27 | kallsyms | loop invariant of the binary search; induction over lines |
| C28 | kaslr | modular arithmetic |
| C29 | the prefix loop as a relation (it may not end) and the field splitting (M_Flags) against a grammar of -k arguments (S_Flags) | termination iff known prefixes, by measure; refuted for unknown prefixes |
| C30,C31 | worker state machine of the graph parser | invariant over all schedules; refutation by a schedule |
| C32 | callee decoding | modular arithmetic |
| C33 | LBR history: trimming to the traced function, endpoints, records, numbering (M_Lbr) | spec S_Lbr (infix, chain, breaks); induction over the pushed branches |
| C34 | cache file on a small file system: processes, inodes, temp names, write chunks, failures, kills, power loss (M_Cache) | invariant over all event histories; refuted for power loss (no fsync) and for a temp name that comes back |
| C35 | NUL-terminated strings | induction |
| C36 | default modes and the checks of ParseFlags (M_Flags) | iff with an independent acceptability predicate; documented default refuted without -k; (m) with the global graph option refuted |
| C37 | config bits | case analysis |
| C38 | line table of a jited function and its binary search (M_Line) | binary-search theorem for every ascending table; refuted: an address before the first line info crashes |
| C39 | tail-call probing | list-bound theorem |
| C40 | guessBytes/trim | list theorem |
| C41 | packet tuple | refuted for IHL >= 8, theorem below |
| C42 | action names | refuted for TC_ACT_UNSPEC, theorem otherwise |
| C43 | pattern.match, matchKernelFunc, checkKfuncTraceable, findKernelFuncs, searchKernelFuncs (M_Kfuncs) over any glob matcher and symbol table | iff characterisation by induction over patterns, parameters and visited functions |
| C44 | ExtractVarNames over generic syntax trees, with the compiler model's expressions embedded | walk collects exactly the occurring names (induction on trees), sort + compact gives a strictly increasing list; a call without arguments crashes (refuted) |
| C45 | fgraph depth | invariant over call histories |
| C46 | mathx.Mask | loop invariant (power of two) |
| C47 | detectTraceables batching | induction over the list |
| C48 | readKernel size rounding | modular arithmetic; wrap refuted |
| C49 | 32-bit time stamps | theorem below 2^32 ns, refuted above |
| C50 | event handler with panics as outcome | invariant over streams; refuted for graph events on plain sessions |
| C51 | graph sessions | induction over interleaved streams |
| C52 | tunnel skipping | byte-level theorem; refuted for outer options |
| C53 | event records | byte-level round trip between the C emitter and the Go handler |
| C54 | symbol look-up by name | list theorem over listings; refuted for two LLVM clones (map order) |
| C55 | instruction-mode sessions | induction over interleaved streams |
| C56 | `compileFuncCall`, `postCheckFuncCall`, capture code (M_OutArg) against a table of requests (S_OutArg.request) | case analysis over call forms and operand types |
| C57 | `split_call` (M_OutArg) | case analysis; refuted for a call without arguments |
| C58 | `patchBPFSessionInsns` (M_Asm) | list theorem |
| C59 | `parseProgFlag` (M_Flags) against a grammar of -p arguments | as C29; refuted for unknown prefixes |
| C60 | Addr2Line.get/getMod with the cache, KASLR and modules (M_A2l) | invariant over all look-up sequences of one boot; refuted across boots and for addresses without symbol |
| C61 | create() and wait() as two interleaved threads (M_Ready) | measure + invariant over all schedules; refuted: failure never wakes the waiter, early wake-up |
| C62 | parseProgs, wait, traceProg interleaved (M_Ready) | invariant over all schedules; refuted: attach before parse, unparsable program |
| C63 | dbgsymCache.add sequences (M_Cache.adds) | induction; refuted for concurrent processes |
| C64 | iterateKernelBtfs, inferenceKfuncKmods, prepareKmods (M_Kfuncs) | sortedness + set characterisation; refuted: slices.Delete(kmods, idx, 1), options in the raw pattern |
| C65 | traceFuncsMulti, traceKfuncMulti(Mode), filterKprobeMultiSymbols, findMatchedArgIndex, validateKmultiArgOutput (M_Multi) | exact description of the groups by induction over the functions; refuted: groups keyed by argument position alone, duplicates |
| C66 | argumentFilter.inject, matchParams, injectArgFilter (M_Multi), for every compiler | iff characterisation; refuted: later expressions about the same function are ignored |
| C67 | newProgFlags, allID, prepareProgInfos (all paths), addTracing (M_ProgSel) over any set of loaded programs | growth invariants over all visits; refuted: pkt dropped, same-selector flags overridden, '*' drops functions |
| C30 | FuncGraphParser.add/parse as a transition system: any number of worker tasks, one step = one critical section, any interleaving; calls as an arbitrary function (cycles allowed) | decreasing measure over (unparsed (function, depth) pairs, pending work) + progress; soundness invariant: everything selected is reachable within the limit |
| C31 | the same transition system; the deny run and the final removal | completeness invariant for executions in which no worker meets an inserted-but-unfilled entry (partial); concrete racy schedules refute the unrestricted claim (a function within the limit is lost; a root loses its root mark) |
| C68 | ReprValue, reprMember, ReprEnumValue, GetU64 (btfx/types.go) over underlying types; the two captured words | induction on the type: integers, pointers and records of them show exactly the value of their own bytes; refuted for bools, enums, bit-field members and zero-sized trailing members |

## 3. Trusted base

* The kernel of Coq 8.16.1 (`coqc`), its standard library, and the reading of the Go and C sources recorded in the comments of the `M_*.v`
  files.  No other library is used.
* Axioms: none.  Every `T_*.v` file ends each theorem with `Print Assumptions`; for every one of the theorems listed below
  the output is `Closed under the global context`.
* No `Axiom`, `Parameter`, section-less `Variable`/`Hypothesis`, `Admitted`, functor or module type occurs; no kernel check is switched off.
  (`Section`-bound variables occur in a few model files; they are generalised when the section closes, so they appear as
  quantified arguments in the theorems.)
* `vm_compute` is used for closed boolean facts (concrete witnesses, examples); it is part of the kernel.
* External behaviour that the model *assumes* (a reading of documentation, not proved):
  - the eBPF instruction set and helpers (M_Ebpf.v): 32-bit immediates sign-extended, unsigned jumps, DIV/MOD by zero, shifts mod 64,
    `bpf_probe_read_kernel` copies all bytes or zero-fills the destination, helper calls clobber R0-R5 and keep R6-R10;
  - cilium/ebpf: marshalling of constants to 32 bits, label resolution of `WithReference`/`WithSymbol`, BTF queries (type by name, member
    offset, size) as consistent oracles, map look-up/update/delete as finite maps, ring buffer records delivered in order;
  - rsc.io/c2go parses an expression to the AST given to the compiler;
  - Go: maps as finite maps with unspecified iteration order, `slices.Sort`/`Compact`/`BinarySearch`, `strconv.ParseUint`, `bufio.Scanner`
    lines, out-of-range slice expressions and nil dereferences panic, unsafe reads see the bytes in little-endian order (amd64/arm64);
  - kernel: `bpf_session_cookie`, `bpf_get_stack` (innermost return address first), fentry/fexit trampolines store arguments as an
    array of 8-byte words, rename(2) is atomic, O_EXCL.

### Theorems and what `Print Assumptions` lists

| theorem | file | assumptions |
|---------|------|-------------|
| C01_false_conjunct_never_matches_partial | T_CcShort.v | none (closed under the global context) |
| C01_filter_returns_truth_of_expression_partial | T_Cc.v | none (closed under the global context) |
| C01_filter_short_circuits_partial | T_CcShort.v | none (closed under the global context) |
| C01_nested_guard_refuted | T_CcShort.v | none (closed under the global context) |
| C02_alloc_after_free_succeeds | T_CcReg.v | none (closed under the global context) |
| C02_alloc_fails_iff_all_in_use | T_CcReg.v | none (closed under the global context) |
| C02_alloc_returns_a_free_register | T_CcReg.v | none (closed under the global context) |
| C02_free_changes_only_its_register | T_CcReg.v | none (closed under the global context) |
| C02_mark_panics_iff_not_R0_to_R9 | T_CcReg.v | none (closed under the global context) |
| C02_marked_register_is_not_handed_out | T_CcReg.v | none (closed under the global context) |
| C02_no_register_is_handed_out_twice | T_CcReg.v | none (closed under the global context) |
| C02_register_in_use_is_not_handed_out | T_CcReg.v | none (closed under the global context) |
| C03_filter_loses_a_live_value_refuted | T_CcReg.v | none (closed under the global context) |
| C03_live_register_is_lost_refuted | T_CcReg.v | none (closed under the global context) |
| C03_saved_registers_survive_partial | T_CcReg.v | none (closed under the global context) |
| C04_filter_code_terminates_inside_itself | T_CcSafe.v | none (closed under the global context) |
| C04_length_bound_is_needed | T_CcSafe.v | none (closed under the global context) |
| C05_every_or_following_null_matches_refuted | T_CcShort.v | none (closed under the global context) |
| C05_following_null_does_not_match_partial | T_Null.v | none (closed under the global context) |
| C05_null_exit_does_not_match_partial | T_CcSafe.v | none (closed under the global context) |
| C05_null_exit_of_or_matches_refuted | T_CcSafe.v | none (closed under the global context) |
| C05_null_parameter_matches_refuted | T_CcSafe.v | none (closed under the global context) |
| C06_int_against_negative_constant_refuted | T_CcVals.v | none (closed under the global context) |
| C06_negative_values_are_misjudged_refuted | T_CcVals.v | none (closed under the global context) |
| C06_signed_parameter_compares_unsigned_partial | T_CcVals.v | none (closed under the global context) |
| C07_constant_is_compared_in_full_iff_it_fits | T_CcVals.v | none (closed under the global context) |
| C07_wide_constants_are_truncated_refuted | T_CcVals.v | none (closed under the global context) |
| C08_bit_fields_read_their_bits_partial | T_CcVals.v | none (closed under the global context) |
| C08_wide_bit_fields_refuted | T_CcVals.v | none (closed under the global context) |
| C09_small_members_are_zero_extended | T_CcVals.v | none (closed under the global context) |
| C100_cases_complete | T_Ltest.v | none (closed under the global context) |
| C100_comments_ignored | T_Ltest.v | none (closed under the global context) |
| C100_default_timeout | T_Ltest.v | none (closed under the global context) |
| C100_directory | T_Ltest.v | none (closed under the global context) |
| C100_fails_with_reason | T_Ltest.v | none (closed under the global context) |
| C100_file | T_Ltest.v | none (closed under the global context) |
| C100_helper_killed | T_Ltest.v | none (closed under the global context) |
| C100_helper_outlives_refuted | T_Ltest.v | none (closed under the global context) |
| C100_lines_written | T_Ltest.v | none (closed under the global context) |
| C100_many_matches_hang_refuted | T_Ltest.v | none (closed under the global context) |
| C100_no_such_name_passes_refuted | T_Ltest.v | none (closed under the global context) |
| C100_nothing_lost_before_wait | T_Ltest.v | none (closed under the global context) |
| C100_occurs | T_Ltest.v | none (closed under the global context) |
| C100_output_lost_refuted | T_Ltest.v | none (closed under the global context) |
| C100_pass_is_all | T_Ltest.v | none (closed under the global context) |
| C100_passes_only_on_match | T_Ltest.v | none (closed under the global context) |
| C100_reader_stops_iff | T_Ltest.v | none (closed under the global context) |
| C100_returns_partial | T_Ltest.v | none (closed under the global context) |
| C100_separator_last_fails | T_Ltest.v | none (closed under the global context) |
| C100_two_ready_lines_panic_refuted | T_Ltest.v | none (closed under the global context) |
| C101_abort | T_Gmember.v | none (closed under the global context) |
| C101_alias_refuted | T_Gmember.v | none (closed under the global context) |
| C101_graph | T_Gmember.v | none (closed under the global context) |
| C101_large_argument_refuted | T_Gmember.v | none (closed under the global context) |
| C101_member | T_Gmember.v | none (closed under the global context) |
| C101_names | T_Gmember.v | none (closed under the global context) |
| C101_no_abort_partial | T_Gmember.v | none (closed under the global context) |
| C101_patterns | T_Gmember.v | none (closed under the global context) |
| C101_program | T_Gmember.v | none (closed under the global context) |
| C102_branch_table_aligned | T_Color.v | none (closed under the global context) |
| C102_disasm_same_text | T_Color.v | none (closed under the global context) |
| C102_event_line_text | T_Color.v | none (closed under the global context) |
| C102_event_same_text_partial | T_Color.v | none (closed under the global context) |
| C102_expressions_line_partial | T_Color.v | none (closed under the global context) |
| C102_frame_same_text_iff | T_Color.v | none (closed under the global context) |
| C102_graph_dots_refuted | T_Color.v | none (closed under the global context) |
| C102_graph_indentation | T_Color.v | none (closed under the global context) |
| C102_histograms_alone | T_Color.v | none (closed under the global context) |
| C102_insn_same_text | T_Color.v | none (closed under the global context) |
| C102_long_name_refuted | T_Color.v | none (closed under the global context) |
| C102_parameter_colours | T_Color.v | none (closed under the global context) |
| C102_read_same_text | T_Color.v | none (closed under the global context) |
| C102_stray_comma_refuted | T_Color.v | none (closed under the global context) |
| C103_events_of_a_call | T_Kmulti.v | none (closed under the global context) |
| C103_exit_arguments_refuted | T_Kmulti.v | none (closed under the global context) |
| C103_values_shown_partial | T_Kmulti.v | none (closed under the global context) |
| C104_branches_not_asked_refuted | T_Need.v | none (closed under the global context) |
| C104_branches_ready_partial | T_Need.v | none (closed under the global context) |
| C104_features_known | T_Need.v | none (closed under the global context) |
| C104_kernel_suffices | T_Need.v | none (closed under the global context) |
| C104_lines | T_Need.v | none (closed under the global context) |
| C104_starts | T_Need.v | none (closed under the global context) |
| C104_target_stacks_refuted | T_Need.v | none (closed under the global context) |
| C104_tracepoint_branches_refuted | T_Need.v | none (closed under the global context) |
| C105_constant_refuted | T_Read.v | none (closed under the global context) |
| C105_heap_address_refuted | T_Read.v | none (closed under the global context) |
| C105_not_triggered | T_Read.v | none (closed under the global context) |
| C105_read_shows_value_partial | T_Read.v | none (closed under the global context) |
| C106_bursts_detected | T_Crc.v | none (closed under the global context) |
| C106_crc_is_remainder | T_Crc.v | none (closed under the global context) |
| C106_not_ip_refuted | T_Crc.v | none (closed under the global context) |
| C106_options_refuted | T_Crc.v | none (closed under the global context) |
| C106_packets_partial | T_Crc.v | none (closed under the global context) |
| C106_remainder_unique | T_Crc.v | none (closed under the global context) |
| C106_source_octets | T_Crc.v | none (closed under the global context) |
| C106_source_ports_differ | T_Crc.v | none (closed under the global context) |
| C106_whole_address_refuted | T_Crc.v | none (closed under the global context) |
| C107_again_nothing | T_Trim.v | none (closed under the global context) |
| C107_all_given_untouched | T_Trim.v | none (closed under the global context) |
| C107_every_program_partial | T_Trim.v | none (closed under the global context) |
| C107_still_links | T_Trim.v | none (closed under the global context) |
| C107_unused_left_out_partial | T_Trim.v | none (closed under the global context) |
| C108_const_context_refuted | T_ArgType.v | none (closed under the global context) |
| C108_context_types_partial | T_ArgType.v | none (closed under the global context) |
| C108_fails_exactly_without_struct | T_ArgType.v | none (closed under the global context) |
| C108_no_context_left_partial | T_ArgType.v | none (closed under the global context) |
| C108_same_packet_parameter | T_ArgType.v | none (closed under the global context) |
| C109_inside_is_read | T_ReadAt.v | none (closed under the global context) |
| C109_reader_contract | T_ReadAt.v | none (closed under the global context) |
| C109_reads_everything | T_ReadAt.v | none (closed under the global context) |
| C10_address_of_lvalue | T_CcAddr.v | none (closed under the global context) |
| C10_address_of_path_is_base_plus_offsets | T_CcAddr.v | none (closed under the global context) |
| C110_address_resolved_from_text | T_Text.v | none (closed under the global context) |
| C110_available_functions_no_crash | T_Text.v | none (closed under the global context) |
| C110_available_functions_read | T_Text.v | none (closed under the global context) |
| C110_kallsyms_text_read | T_Text.v | none (closed under the global context) |
| C110_no_line_lost | T_Text.v | none (closed under the global context) |
| C110_programs_of_process | T_Text.v | none (closed under the global context) |
| C110_unreadable_refused | T_Text.v | none (closed under the global context) |
| C111_held_back_iff_entry_and_exit_traced | T_CallLine.v | none (closed under the global context) |
| C111_line_tells_the_call_partial | T_CallLine.v | none (closed under the global context) |
| C112_graph_option_prints_nothing_refuted | T_MultiLine.v | none (closed under the global context) |
| C112_held_back_without_graph_partial | T_MultiLine.v | none (closed under the global context) |
| C112_line_tells_the_registers_partial | T_MultiLine.v | none (closed under the global context) |
| C113_anchors | T_Kmods.v | none (closed under the global context) |
| C113_modules | T_Kmods.v | none (closed under the global context) |
| C113_only_these_names | T_Kmods.v | none (closed under the global context) |
| C114_integer_types | T_CType.v | none (closed under the global context) |
| C114_struct_tags | T_CType.v | none (closed under the global context) |
| C114_type_names | T_CType.v | none (closed under the global context) |
| C114_void | T_CType.v | none (closed under the global context) |
| C115_enumerator_is_its_number | T_CcNames.v | none (closed under the global context) |
| C115_name_alone_is_no_filter | T_CcNames.v | none (closed under the global context) |
| C115_unknown_name_accepted_refuted | T_CcNames.v | none (closed under the global context) |
| C115_unknown_name_beside_a_constant_refused | T_CcNames.v | none (closed under the global context) |
| C115_unknown_name_refused_partial | T_CcNames.v | none (closed under the global context) |
| C11_elements_are_not_read_refuted | T_CcAddr.v | none (closed under the global context) |
| C11_index_compares_the_address_refuted | T_CcAddr.v | none (closed under the global context) |
| C12_folded_arithmetic_partial | T_CcNum.v | none (closed under the global context) |
| C12_folded_comparison_partial | T_CcNum.v | none (closed under the global context) |
| C12_folding_differs_refuted | T_CcNum.v | none (closed under the global context) |
| C12_folding_is_int64_arithmetic | T_CcNum.v | none (closed under the global context) |
| C13_literal_shift_counts_never_panic_partial | T_CcNum.v | none (closed under the global context) |
| C13_negative_constant_shift_panics_refuted | T_CcNum.v | none (closed under the global context) |
| C13_only_a_negative_constant_shift_panics | T_CcNum.v | none (closed under the global context) |
| C14_bad_digits_are_rejected | T_CcNum.v | none (closed under the global context) |
| C14_every_number_is_read_back | T_CcNum.v | none (closed under the global context) |
| C14_minus_negates_modulo_2_64 | T_CcNum.v | none (closed under the global context) |
| C14_radix_notations | T_CcNum.v | none (closed under the global context) |
| C15_reservation_is_normalised | T_CcSafe.v | none (closed under the global context) |
| C15_stack_writes_stay_in_their_area | T_CcSafe.v | none (closed under the global context) |
| C16_after_16_byte_struct_refuted | T_FnArgs.v | none (closed under the global context) |
| C16_shown_from_own_registers_partial | T_FnArgs.v | none (closed under the global context) |
| C17_multi_probe_arguments_shown | T_FnArgs.v | none (closed under the global context) |
| C18_hist_shifts_later_refuted | T_OutArg.v | none (closed under the global context) |
| C18_shown_from_own_bytes_partial | T_OutArg.v | none (closed under the global context) |
| C19_injection_redefines_only_the_stub | T_Asm.v | none (closed under the global context) |
| C20_clearing_removes_stub_and_calls_partial | T_Asm.v | none (closed under the global context) |
| C20_wrapper_loses_its_name_refuted | T_Asm.v | none (closed under the global context) |
| C21_entry_exit_paired_fsession | T_Sess.v | none (closed under the global context) |
| C21_entry_exit_paired_partial | T_Sess.v | none (closed under the global context) |
| C21_recursion_beyond_64_refuted | T_Sess.v | none (closed under the global context) |
| C21_rejected_inner_call_refuted | T_Sess.v | none (closed under the global context) |
| C22_session_table | T_Sess.v | none (closed under the global context) |
| C23_huge_limit_refuted | T_Sess.v | none (closed under the global context) |
| C23_limit_partial | T_Sess.v | none (closed under the global context) |
| C23_no_limit_handles_all | T_Sess.v | none (closed under the global context) |
| C23_stops_at_once | T_Sess.v | none (closed under the global context) |
| C24_positive_samples_counted_partial | T_Bytes.v | none (closed under the global context) |
| C24_row_labels_partial | T_Bytes.v | none (closed under the global context) |
| C24_rows_printed_partial | T_Bytes.v | none (closed under the global context) |
| C24_sample_value | T_Bytes.v | none (closed under the global context) |
| C24_top_row_label_refuted | T_Bytes.v | none (closed under the global context) |
| C24_zero_sample_refuted | T_Bytes.v | none (closed under the global context) |
| C25_counts_sum_partial | T_Flame.v | none (closed under the global context) |
| C25_file_partial | T_Flame.v | none (closed under the global context) |
| C25_frame_named_root_refuted | T_Flame.v | none (closed under the global context) |
| C25_one_line_per_stack_partial | T_Flame.v | none (closed under the global context) |
| C25_total_value | T_Flame.v | none (closed under the global context) |
| C26_addresses_parsed_exactly | T_Kallsyms.v | none (closed under the global context) |
| C26_empty_table_crashes | T_Kallsyms.v | none (closed under the global context) |
| C26_find_returns_containing_symbol | T_Kallsyms.v | none (closed under the global context) |
| C26_next_of_last_symbol_fails | T_Kallsyms.v | none (closed under the global context) |
| C26_next_returns_following_symbol | T_Kallsyms.v | none (closed under the global context) |
| C26_out_of_range_fails | T_Kallsyms.v | none (closed under the global context) |
| C27_duplicates_marked | T_Kallsyms.v | none (closed under the global context) |
| C27_lookup_by_name | T_Kallsyms.v | none (closed under the global context) |
| C28_kaslr_invertible | T_Kallsyms.v | none (closed under the global context) |
| C28_kaslr_is_translation | T_Kallsyms.v | none (closed under the global context) |
| C29_argument_recovered | T_Flags.v | none (closed under the global context) |
| C29_conflicts_refused | T_Flags.v | none (closed under the global context) |
| C29_terminates_iff_known_prefixes_partial | T_Flags.v | none (closed under the global context) |
| C29_unknown_prefix_hangs_refuted | T_Flags.v | none (closed under the global context) |
| C29_white_space_around_is_ignored | T_Flags.v | none (closed under the global context) |
| C30_depth | T_Gparse.v | none (closed under the global context) |
| C30_terminates | T_Gparse.v | none (closed under the global context) |
| C31_all_found_partial | T_Gparse.v | none (closed under the global context) |
| C31_denied_partial | T_Gparse.v | none (closed under the global context) |
| C31_race_refuted | T_Gparse.v | none (closed under the global context) |
| C31_root_flag_partial | T_Gparse.v | none (closed under the global context) |
| C31_root_flag_refuted | T_Gparse.v | none (closed under the global context) |
| C32_callee_is_cpu_target | T_Bytes.v | none (closed under the global context) |
| C32_only_calls_decoded | T_Bytes.v | none (closed under the global context) |
| C33_branches_in_order | T_Lbr.v | none (closed under the global context) |
| C33_kept_branches | T_Lbr.v | none (closed under the global context) |
| C34_always_loads_partial | T_Cache.v | none (closed under the global context) |
| C34_old_or_complete_partial | T_Cache.v | none (closed under the global context) |
| C34_power_loss_refuted | T_Cache.v | none (closed under the global context) |
| C34_reused_name_refuted | T_Cache.v | none (closed under the global context) |
| C35_string_is_longest_nul_free_prefix | T_Bytes.v | none (closed under the global context) |
| C36_acceptance | T_Flags.v | none (closed under the global context) |
| C36_default_without_kfuncs_refuted | T_Flags.v | none (closed under the global context) |
| C36_every_kfunc_traced_once | T_Flags.v | none (closed under the global context) |
| C36_modes_in_force | T_Flags.v | none (closed under the global context) |
| C36_multi_split | T_Flags.v | none (closed under the global context) |
| C36_multi_with_global_graph_refuted | T_Flags.v | none (closed under the global context) |
| C37_event_flag_masks | T_Cfg.v | none (closed under the global context) |
| C37_flags_mean_the_same | T_Cfg.v | none (closed under the global context) |
| C37_sizes_mean_the_same | T_Cfg.v | none (closed under the global context) |
| C37_table_is_complete | T_Cfg.v | none (closed under the global context) |
| C38_any_order | T_Line.v | none (closed under the global context) |
| C38_before_first_line_crashes_refuted | T_Line.v | none (closed under the global context) |
| C38_covering_line_partial | T_Line.v | none (closed under the global context) |
| C38_outside_no_answer | T_Line.v | none (closed under the global context) |
| C39_endbr_recognised | T_Bytes.v | none (closed under the global context) |
| C39_tailcall_probe_total_and_exact | T_Bytes.v | none (closed under the global context) |
| C40_guess_bounded | T_Bytes.v | none (closed under the global context) |
| C40_trim_only_padding | T_Bytes.v | none (closed under the global context) |
| C40_user_size_wins | T_Bytes.v | none (closed under the global context) |
| C41_long_header_reads_elsewhere | T_Pkt.v | none (closed under the global context) |
| C41_long_header_refuted | T_Pkt.v | none (closed under the global context) |
| C41_other_packets_show_stale_refuted | T_Pkt.v | none (closed under the global context) |
| C41_other_protocols_show_stale_refuted | T_Pkt.v | none (closed under the global context) |
| C41_skb_tuple_partial | T_Pkt.v | none (closed under the global context) |
| C41_xdp_tuple_partial | T_Pkt.v | none (closed under the global context) |
| C41_xdp_vlan_tuple_partial | T_Pkt.v | none (closed under the global context) |
| C42_tc_actions_named_partial | T_Bytes.v | none (closed under the global context) |
| C42_tc_unspec_refuted | T_Bytes.v | none (closed under the global context) |
| C42_xdp_actions_named | T_Bytes.v | none (closed under the global context) |
| C43_selected_iff | T_Kfuncs.v | none (closed under the global context) |
| C43_traced_iff | T_Kfuncs.v | none (closed under the global context) |
| C44_empty_call_refuted | T_Vars.v | none (closed under the global context) |
| C44_expressions | T_Vars.v | none (closed under the global context) |
| C44_names | T_Vars.v | none (closed under the global context) |
| C44_total | T_Vars.v | none (closed under the global context) |
| C45_deep_stack_refuted | T_Fgraph.v | none (closed under the global context) |
| C45_fsession_roots_refuted | T_Fgraph.v | none (closed under the global context) |
| C45_graph_depth_partial | T_Fgraph.v | none (closed under the global context) |
| C46_cpu_mask | T_Bytes.v | none (closed under the global context) |
| C46_cpu_mask_large_diverges | T_Bytes.v | none (closed under the global context) |
| C46_mask_of_largest | T_Bytes.v | none (closed under the global context) |
| C47_batched_probe_is_filter | T_Bytes.v | none (closed under the global context) |
| C48_read_size | T_Bytes.v | none (closed under the global context) |
| C48_read_size_wrap_refuted | T_Bytes.v | none (closed under the global context) |
| C49_durations_fsession_partial | T_Sess.v | none (closed under the global context) |
| C49_durations_partial | T_Sess.v | none (closed under the global context) |
| C49_long_calls_refuted | T_Sess.v | none (closed under the global context) |
| C50_events_never_crash_partial | T_Sess.v | none (closed under the global context) |
| C50_graph_event_on_plain_session_refuted | T_Sess.v | none (closed under the global context) |
| C51_graph_group | T_Sess.v | none (closed under the global context) |
| C52_other_packets_unaffected | T_Pkt.v | none (closed under the global context) |
| C52_outer_options_refuted | T_Pkt.v | none (closed under the global context) |
| C52_vxlan_inner_tuple_partial | T_Pkt.v | none (closed under the global context) |
| C52_vxlan_inner_tuple_xdp_partial | T_Pkt.v | none (closed under the global context) |
| C53_function_records_decode | T_Cfg.v | none (closed under the global context) |
| C53_lbr_and_stack | T_Cfg.v | none (closed under the global context) |
| C53_multi_probes | T_Cfg.v | none (closed under the global context) |
| C53_multi_probes_say_what_was_asked | T_Cfg.v | none (closed under the global context) |
| C53_multi_records_decode | T_Cfg.v | none (closed under the global context) |
| C53_probes | T_Cfg.v | none (closed under the global context) |
| C53_probes_say_what_was_asked | T_Cfg.v | none (closed under the global context) |
| C54_gcc_clones | T_Kallsyms.v | none (closed under the global context) |
| C54_llvm_ambiguous_refuted | T_Kallsyms.v | none (closed under the global context) |
| C54_llvm_clones_partial | T_Kallsyms.v | none (closed under the global context) |
| C55_instruction_group | T_Sess.v | none (closed under the global context) |
| C56_number_pointers | T_OutArg.v | none (closed under the global context) |
| C56_operand_types | T_OutArg.v | none (closed under the global context) |
| C56_output_functions_show_requested_bytes | T_OutArg.v | none (closed under the global context) |
| C56_packet_protocols | T_OutArg.v | none (closed under the global context) |
| C57_empty_call_crashes_refuted | T_OutArg.v | none (closed under the global context) |
| C57_only_empty_calls_crash_partial | T_OutArg.v | none (closed under the global context) |
| C58_session_calls_patched | T_Asm.v | none (closed under the global context) |
| C59_kfunc_prefix_hangs_refuted | T_Flags.v | none (closed under the global context) |
| C59_program_recovered | T_Flags.v | none (closed under the global context) |
| C60_module_read_once | T_A2l.v | none (closed under the global context) |
| C60_no_symbol_crashes_refuted | T_A2l.v | none (closed under the global context) |
| C60_other_boot_refuted | T_A2l.v | none (closed under the global context) |
| C60_right_line_partial | T_A2l.v | none (closed under the global context) |
| C61_begun_later_finds_partial | T_A2l.v | none (closed under the global context) |
| C61_failure_blocks_for_ever_refuted | T_A2l.v | none (closed under the global context) |
| C61_returns | T_A2l.v | none (closed under the global context) |
| C61_woken_too_early_refuted | T_A2l.v | none (closed under the global context) |
| C62_attach_after_parsing_partial | T_A2l.v | none (closed under the global context) |
| C62_attach_first_crashes_refuted | T_A2l.v | none (closed under the global context) |
| C62_unparsed_program_refuted | T_A2l.v | none (closed under the global context) |
| C62_waiting_sees_everything | T_A2l.v | none (closed under the global context) |
| C63_looked_up_is_kept_partial | T_Cache.v | none (closed under the global context) |
| C63_other_process_refuted | T_Cache.v | none (closed under the global context) |
| C64_each_btf_once_partial | T_Kfuncs.v | none (closed under the global context) |
| C64_modules_partial | T_Kfuncs.v | none (closed under the global context) |
| C64_options_hide_module_refuted | T_Kfuncs.v | none (closed under the global context) |
| C64_vmlinux_listed_refuted | T_Kfuncs.v | none (closed under the global context) |
| C65_attached_partial | T_Multi.v | none (closed under the global context) |
| C65_listed_twice_refuted | T_Multi.v | none (closed under the global context) |
| C65_other_pattern_refuted | T_Multi.v | none (closed under the global context) |
| C65_own_pattern_partial | T_Multi.v | none (closed under the global context) |
| C66_first_expression | T_Multi.v | none (closed under the global context) |
| C66_later_ignored_refuted | T_Multi.v | none (closed under the global context) |
| C66_multi_exit_unfiltered_refuted | T_Kmulti.v | none (closed under the global context) |
| C67_all_traced_partial | T_ProgSel.v | none (closed under the global context) |
| C67_asked_for_partial | T_ProgSel.v | none (closed under the global context) |
| C67_ids_partial | T_ProgSel.v | none (closed under the global context) |
| C67_overridden_refuted | T_ProgSel.v | none (closed under the global context) |
| C67_pkt_dropped_refuted | T_ProgSel.v | none (closed under the global context) |
| C67_star_drops_refuted | T_ProgSel.v | none (closed under the global context) |
| C68_bitfield_refuted | T_Repr.v | none (closed under the global context) |
| C68_bool_member_refuted | T_Repr.v | none (closed under the global context) |
| C68_bool_partial | T_Repr.v | none (closed under the global context) |
| C68_bool_refuted | T_Repr.v | none (closed under the global context) |
| C68_empty_member_refuted | T_Repr.v | none (closed under the global context) |
| C68_enum_partial | T_Repr.v | none (closed under the global context) |
| C68_enum_refuted | T_Repr.v | none (closed under the global context) |
| C68_negative_enum_refuted | T_Repr.v | none (closed under the global context) |
| C68_pointer_partial | T_Repr.v | none (closed under the global context) |
| C68_small_enum_refuted | T_Repr.v | none (closed under the global context) |
| C68_values_partial | T_Repr.v | none (closed under the global context) |
| C69_dropped_event_refuted | T_Stack.v | none (closed under the global context) |
| C69_foreign_stack_refuted | T_Stack.v | none (closed under the global context) |
| C69_no_trampoline_refuted | T_Stack.v | none (closed under the global context) |
| C69_own_or_none_partial | T_Stack.v | none (closed under the global context) |
| C69_own_stack_partial | T_Stack.v | none (closed under the global context) |
| C69_second_event_refuted | T_Stack.v | none (closed under the global context) |
| C70_empty | T_Tdigest.v | none (closed under the global context) |
| C70_table | T_Tdigest.v | none (closed under the global context) |
| C71_buffer | T_Disasm.v | none (closed under the global context) |
| C71_full_size_refuted | T_Disasm.v | none (closed under the global context) |
| C71_read_exact_partial | T_Disasm.v | none (closed under the global context) |
| C71_too_large_refused | T_Disasm.v | none (closed under the global context) |
| C71_unreadable_refuted | T_Disasm.v | none (closed under the global context) |
| C72_by_address | T_Disasm.v | none (closed under the global context) |
| C72_by_name_partial | T_Disasm.v | none (closed under the global context) |
| C72_hex_name_refuted | T_Disasm.v | none (closed under the global context) |
| C73_listing | T_Disasm.v | none (closed under the global context) |
| C73_program_listing | T_Disasm.v | none (closed under the global context) |
| C74_long_function_refuted | T_Disasm.v | none (closed under the global context) |
| C74_short_function_refuted | T_Disasm.v | none (closed under the global context) |
| C74_traced_instructions_partial | T_Disasm.v | none (closed under the global context) |
| C75_all_found | T_Tp.v | none (closed under the global context) |
| C75_long_name_refuted | T_Tp.v | none (closed under the global context) |
| C75_unknown_is_error | T_Tp.v | none (closed under the global context) |
| C75_vmlinux_table | T_Tp.v | none (closed under the global context) |
| C76_kernel_first | T_Tp.v | none (closed under the global context) |
| C76_module_added_partial | T_Tp.v | none (closed under the global context) |
| C76_modules_found | T_Tp.v | none (closed under the global context) |
| C76_modules_probed | T_Tp.v | none (closed under the global context) |
| C76_nothing_else | T_Tp.v | none (closed under the global context) |
| C76_same_name_refuted | T_Tp.v | none (closed under the global context) |
| C76_too_many_modules | T_Tp.v | none (closed under the global context) |
| C77_added_to_functions | T_Tp.v | none (closed under the global context) |
| C77_identifier_found | T_Tp.v | none (closed under the global context) |
| C77_selected | T_Tp.v | none (closed under the global context) |
| C78_kept_iff_partial | T_Traceable.v | none (closed under the global context) |
| C78_own_call_refuted | T_Traceable.v | none (closed under the global context) |
| C78_without_endbr_refuted | T_Traceable.v | none (closed under the global context) |
| C79_call_mode_none | T_Traceable.v | none (closed under the global context) |
| C79_return_sites | T_Traceable.v | none (closed under the global context) |
| C80_session_entry_refuted | T_Ghook.v | none (closed under the global context) |
| C80_shown_partial | T_Ghook.v | none (closed under the global context) |
| C80_traced_once | T_Ghook.v | none (closed under the global context) |
| C81_array_semicolon_refuted | T_Tproto.v | none (closed under the global context) |
| C81_members | T_Tproto.v | none (closed under the global context) |
| C81_negative_enum_refuted | T_Tproto.v | none (closed under the global context) |
| C81_order_refuted | T_Tproto.v | none (closed under the global context) |
| C82_disasm_bytes_refuted | T_Gproto.v | none (closed under the global context) |
| C82_disassembled_once | T_Gproto.v | none (closed under the global context) |
| C82_disassembled_reachable | T_Gproto.v | none (closed under the global context) |
| C82_interrupt_refuted | T_Gproto.v | none (closed under the global context) |
| C82_interrupted | T_Gproto.v | none (closed under the global context) |
| C82_mark_refuted | T_Gproto.v | none (closed under the global context) |
| C82_tree_partial | T_Gproto.v | none (closed under the global context) |
| C83_bad_expression_refuted | T_PktSel.v | none (closed under the global context) |
| C83_bad_expression_reported | T_PktSel.v | none (closed under the global context) |
| C83_behind_struct_refuted | T_PktSel.v | none (closed under the global context) |
| C83_const_packet_refuted | T_PktSel.v | none (closed under the global context) |
| C83_no_packet_passes | T_PktSel.v | none (closed under the global context) |
| C83_packet_filter_partial | T_PktSel.v | none (closed under the global context) |
| C83_same_packet | T_PktSel.v | none (closed under the global context) |
| C84_filter_cleared | T_PktSel.v | none (closed under the global context) |
| C84_filter_program | T_PktSel.v | none (closed under the global context) |
| C84_output_cleared | T_PktSel.v | none (closed under the global context) |
| C84_output_program | T_PktSel.v | none (closed under the global context) |
| C85_before_first_line_crashes_refuted | T_LineInfo.v | none (closed under the global context) |
| C85_bpf_position | T_LineInfo.v | none (closed under the global context) |
| C85_build_directory | T_LineInfo.v | none (closed under the global context) |
| C85_kernel_position_partial | T_LineInfo.v | none (closed under the global context) |
| C85_outside_symbols_crashes_refuted | T_LineInfo.v | none (closed under the global context) |
| C85_without_debug_data | T_LineInfo.v | none (closed under the global context) |
| C86_erased_refuted | T_LbrCap.v | none (closed under the global context) |
| C86_interrupted_run_refuted | T_LbrCap.v | none (closed under the global context) |
| C86_own_branches_partial | T_LbrCap.v | none (closed under the global context) |
| C86_same_session_refuted | T_LbrCap.v | none (closed under the global context) |
| C87_given_directory | T_Dbg.v | none (closed under the global context) |
| C87_module_file | T_Dbg.v | none (closed under the global context) |
| C87_unreadable_directory_refuted | T_Dbg.v | none (closed under the global context) |
| C87_usual_places | T_Dbg.v | none (closed under the global context) |
| C88_fixed_only_if_seen | T_Tail.v | none (closed under the global context) |
| C88_hidden_code | T_Tail.v | none (closed under the global context) |
| C88_jump_mode | T_Tail.v | none (closed under the global context) |
| C88_left_out | T_Tail.v | none (closed under the global context) |
| C88_trampoline_before_refuted | T_Tail.v | none (closed under the global context) |
| C88_verdict_partial | T_Tail.v | none (closed under the global context) |
| C89_instructions_partial | T_Emit.v | none (closed under the global context) |
| C89_no_instructions_refuted | T_Emit.v | none (closed under the global context) |
| C89_session_mode | T_Emit.v | none (closed under the global context) |
| C89_single_mode | T_Emit.v | none (closed under the global context) |
| C89_two_programs_partial | T_Emit.v | none (closed under the global context) |
| C89_wanted | T_Emit.v | none (closed under the global context) |
| C90_graph_kernel_functions | T_Label.v | none (closed under the global context) |
| C90_graph_programs | T_Label.v | none (closed under the global context) |
| C90_header | T_Label.v | none (closed under the global context) |
| C90_kernel_functions_partial | T_Label.v | none (closed under the global context) |
| C90_kernel_functions_single_name | T_Label.v | none (closed under the global context) |
| C90_multi | T_Label.v | none (closed under the global context) |
| C90_numbering_ends | T_Label.v | none (closed under the global context) |
| C90_other_name_refuted | T_Label.v | none (closed under the global context) |
| C90_programs | T_Label.v | none (closed under the global context) |
| C90_tracepoint_collision_refuted | T_Label.v | none (closed under the global context) |
| C90_tracepoint_numbers | T_Label.v | none (closed under the global context) |
| C90_tracepoints_partial | T_Label.v | none (closed under the global context) |
| C90_unknown_address | T_Label.v | none (closed under the global context) |
| C91_listed | T_Proto.v | none (closed under the global context) |
| C91_listed_modules_ignored_refuted | T_Proto.v | none (closed under the global context) |
| C91_lookalikes_refuted | T_Proto.v | none (closed under the global context) |
| C91_modules_partial | T_Proto.v | none (closed under the global context) |
| C91_parameter_list | T_Proto.v | none (closed under the global context) |
| C91_program_line | T_Proto.v | none (closed under the global context) |
| C91_prototype_readable_partial | T_Proto.v | none (closed under the global context) |
| C91_same_every_time | T_Proto.v | none (closed under the global context) |
| C91_shown | T_Proto.v | none (closed under the global context) |
| C91_text | T_Proto.v | none (closed under the global context) |
| C91_two_modules_refuted | T_Proto.v | none (closed under the global context) |
| C91_type_readable_partial | T_Proto.v | none (closed under the global context) |
| C92_both_ends_refuted | T_Attach.v | none (closed under the global context) |
| C92_error_detaches_refuted | T_Attach.v | none (closed under the global context) |
| C92_failure | T_Attach.v | none (closed under the global context) |
| C92_have_tracing | T_Attach.v | none (closed under the global context) |
| C92_nothing_refused | T_Attach.v | none (closed under the global context) |
| C92_success | T_Attach.v | none (closed under the global context) |
| C92_terminates | T_Attach.v | none (closed under the global context) |
| C93_lost_events_cookie | T_Lossy.v | none (closed under the global context) |
| C93_lost_events_map | T_Lossy.v | none (closed under the global context) |
| C93_memory_freed_refuted | T_Lossy.v | none (closed under the global context) |
| C93_output_is_part | T_Lossy.v | none (closed under the global context) |
| C93_reused_id_refuted | T_Lossy.v | none (closed under the global context) |
| C93_sessions_left | T_Lossy.v | none (closed under the global context) |
| C94_clean_exit | T_Shutdown.v | none (closed under the global context) |
| C94_crash | T_Shutdown.v | none (closed under the global context) |
| C94_early_signal | T_Shutdown.v | none (closed under the global context) |
| C94_ends_by_itself | T_Shutdown.v | none (closed under the global context) |
| C94_failure | T_Shutdown.v | none (closed under the global context) |
| C94_flame_graph_saved_refuted | T_Shutdown.v | none (closed under the global context) |
| C94_handed_back_refuted | T_Shutdown.v | none (closed under the global context) |
| C94_held | T_Shutdown.v | none (closed under the global context) |
| C94_signal_kills_iff_not_handled | T_Shutdown.v | none (closed under the global context) |
| C94_statuses | T_Shutdown.v | none (closed under the global context) |
| C94_terminates | T_Shutdown.v | none (closed under the global context) |
| C95_config | T_Grec.v | none (closed under the global context) |
| C95_function_records | T_Grec.v | none (closed under the global context) |
| C95_graph_records_partial | T_Grec.v | none (closed under the global context) |
| C95_insn_records | T_Grec.v | none (closed under the global context) |
| C95_record_end_refuted | T_Grec.v | none (closed under the global context) |
| C95_shown_partial | T_Grec.v | none (closed under the global context) |
| C95_submits | T_Grec.v | none (closed under the global context) |
| C95_unknown | T_Grec.v | none (closed under the global context) |
| C96_distinct_ids_paired | T_Ctx.v | none (closed under the global context) |
| C96_idle_cpus_mispaired_refuted | T_Ctx.v | none (closed under the global context) |
| C96_idle_cpus_paired_fsession | T_Ctx.v | none (closed under the global context) |
| C96_shared_id_paired_partial | T_Ctx.v | none (closed under the global context) |
| C97_concurrent_tasks_paired_partial | T_Conc.v | none (closed under the global context) |
| C97_missed_probe_mispairs_refuted | T_Conc.v | none (closed under the global context) |
| C97_probes_as_if_atomic | T_Conc.v | none (closed under the global context) |
| C97_probes_never_stuck | T_Conc.v | none (closed under the global context) |
| C98_arm64_never_found | T_Sid.v | none (closed under the global context) |
| C98_arm64_padding_refuted | T_Sid.v | none (closed under the global context) |
| C98_caller_frame_arm64_partial | T_Sid.v | none (closed under the global context) |
| C98_caller_frame_x86_partial | T_Sid.v | none (closed under the global context) |
| C98_calls_told_apart | T_Sid.v | none (closed under the global context) |
| C98_ids_equal_iff | T_Sid.v | none (closed under the global context) |
| C98_kmulti_recursion_refuted | T_Sid.v | none (closed under the global context) |
| C98_other_exit_program_refuted | T_Sid.v | none (closed under the global context) |
| C98_unreadable_frame | T_Sid.v | none (closed under the global context) |
| C98_zero_id_refuted | T_Sid.v | none (closed under the global context) |
| C99_branch_types | T_LbrOpen.v | none (closed under the global context) |
| C99_close_closes_all | T_LbrOpen.v | none (closed under the global context) |
| C99_depth_missing | T_LbrOpen.v | none (closed under the global context) |
| C99_depth_read | T_LbrOpen.v | none (closed under the global context) |
| C99_depth_unreadable | T_LbrOpen.v | none (closed under the global context) |
| C99_failed_open_leaks_refuted | T_LbrOpen.v | none (closed under the global context) |
| C99_failure_leaves | T_LbrOpen.v | none (closed under the global context) |
| C99_known_types_accepted | T_LbrOpen.v | none (closed under the global context) |
| C99_mask_bounds_iff_power_of_two | T_LbrOpen.v | none (closed under the global context) |
| C99_mask_is_a_word | T_LbrOpen.v | none (closed under the global context) |
| C99_mask_is_found | T_LbrOpen.v | none (closed under the global context) |
| C99_mask_never_ends_refuted | T_LbrOpen.v | none (closed under the global context) |
| C99_mask_of_largest | T_LbrOpen.v | none (closed under the global context) |
| C99_mask_out_of_bounds_refuted | T_LbrOpen.v | none (closed under the global context) |
| C99_mask_smallest | T_LbrOpen.v | none (closed under the global context) |
| C99_one_event_per_cpu | T_LbrOpen.v | none (closed under the global context) |
| C99_opened_when_possible | T_LbrOpen.v | none (closed under the global context) |
| C99_own_buffer | T_LbrOpen.v | none (closed under the global context) |
| C99_unknown_type_opens_nothing | T_LbrOpen.v | none (closed under the global context) |

## 4. What is modelled and what is not

### Modelled

| code | model file |
|------|------------|
| internal/cc: compiler.go, register.go, expr_value.go, evaluate.go, materialize.go, bpf_direct_read.go, bpf_probe_read.go, bpf_core_read.go, bpf_btf.go, insn.go, expr.go, number.go | M_Cc, M_CcNum, target language M_Ebpf |
| internal/cc: expr_func.go, variable.go (ExtractVarNames) | M_OutArg, M_Vars |
| internal/btfx/types.go | M_Repr |
| internal/strx, internal/mathx; small byte helpers, histogram, XDP/TC action names, tail-call/endbr probing, callee decoding, readKernel sizes, detectTraceables batching | M_Bytes |
| kallsyms.go, kaslr.go | M_Kallsyms |
| func_arg.go, bpfsnoop_func_args.go, bpf_tracing_info.go getFuncParams, bpfsnoop_func.go | M_FnArgs |
| output_arg.go, bpfsnoop_arg.go (byte ranges) | M_OutArg |
| bpf_asm.go, bpf_session.go | M_Asm |
| bpfsnoop_config.go, bpf_tracing.go setBpfsnoopConfig, bpf_tracing_func.go, bpf_tracing_prog.go, record decoding of bpfsnoop.go; bpfsnoop.c, bpfsnoop_kmulti.c, bpfsnoop_event_output.h, bpfsnoop_cfg*.h, bpfsnoop_mode.h | M_Cfg |
| bpfsnoop_sess.go, the event loop and handlers of bpfsnoop.go, bpfsnoop_graph.go, bpfsnoop_insn.go; bpfsnoop_sess.h, bpfsnoop_session.h | M_Sess |
| bpfsnoop_fgraph.c, populateFgraphTraceeIPs | M_Fgraph |
| bpfsnoop_pkt.go, bpfsnoop_pkt.h, bpfsnoop_pkt_output.h | M_Pkt |
| flags_kfunc.go, flags_prog.go, flags.go (checks), filter_arg.go getTypeDescFrom | M_Flags |
| kernel_functions*.go, kernel_btf.go | M_Kfuncs |
| bpf_tracing_func_multi.go, filter_arg.go, injectArgFilter | M_Multi |
| bpf_prog_flag.go, bpf_tracing_info.go | M_ProgSel |
| func_graph.go, func_graph_parser.go | M_Gparse |
| bpf_prog_info.go, bpf_prog.go get; parseProgs/wait | M_Line, M_Ready |
| bpfsnoop_lbr.go, lbr_stack.go | M_Lbr |
| flamegraph.go | M_Flame |
| func_proto.go, btfx/types.go (Repr) | M_Proto |
| bpf_tracing.go (NewBPFTracing, Close, HaveTracing), bpf_tracing_{prog,func,func_multi,insn,graph}.go (goroutines, ignored errors) | M_Attach |
| bpf_tracing_graph.go (configuration), bpfsnoop_fgraph.c, bpfsnoop_insn.c (gates, records), bpfsnoop.go (record dispatch) | M_Grec |
| bpfsnoop_sess.h, bpfsnoop_session.h (per memory access, any interleaving; recursion guard of the kernel) | M_Conc |
| bpfsnoop.c, bpfsnoop_kmulti.c (session ids), bpfsnoop_stack.h | M_Sid |
| lbr_perf_event*.go, lbr_nr.go, bpfsnoop_maps.go (.data.lbrs), mathx/math.go | M_LbrOpen |
| cmd/localtest/*.go | M_Ltest |
| func_graph_parser.go:218-316, 351-433, bpf_links.go, bpf_tracing_info.go:29-99 (graph membership) | M_Gmember |
| lbr_stack.go, bpfsnoop_func_stack.go, bpfsnoop_insn.go, bpfsnoop_graph.go, dump.go (texts with and without colours) | M_Color |
| bpfsnoop_kmulti.c (read_args_from_ctx, emit: values), bpfsnoop_mode.h, bpf_tracing_func_multi.go (moments, withRet) | M_Kmulti |
| flags.go:152,221-235, bpf_feature.go:26-129, bpf/feature.c, kernel_functions_multi.go:28-35, main.go (what is prepared) | M_Need |
| internal/bpfsnoop/bpf_read_data.go, bpf/read.c (read_data), expr.go MemoryReadFlagForce | M_Read |
| cmd/xdpcrc/xdp.c | M_Crc |
| internal/bpfsnoop/bpf_spec.go | M_Trim |
| internal/bpfsnoop/bpf_tracing_prog.go:30-71 | M_ArgType |
| internal/bpfsnoop/bytes.go | M_ReadAt |
| kallsyms.go, bpf_tracing_func_multi.go, bpf_prog_flag.go (reading the text files) | M_Text |
| bpfsnoop_func.go, bpfsnoop_func_args.go, bpfsnoop.go, btfx/types.go (the line of a call, end to end) | M_CallLine |
| bpfsnoop_func_args.go (outputFnArgsKmulti, outputFnRetvalKmulti), bpfsnoop_func.go (outputFuncArgsKmulti) | M_MultiLine |
| main.go (start-up order, errgroup, deferred calls), bpfsnoop.go: Run (deferred tables, loop exits), assert.go | M_Shutdown |
| bpfsnoop_func.go (getFuncInfo, header), kernel_tracepoints.go (MergeTracepointsToKfuncs) | M_Label |
| bpf/bpfsnoop.c, bpfsnoop_kmulti.c, bpfsnoop_insn.c: the decision to send | M_Emit |
| bpf_tail_call.go, haveTrampolineJmpMode (bpf_feature.go), the subprogram test of addTracing | M_Tail |
| vmlinux.go, addr2line.go (findKernelModuleFile), main.go (vmlinux) | M_Dbg |
| bpfsnoop_lbr.h and the LBR parts of bpfsnoop.c, bpfsnoop_event_output.h, outputStack | M_LbrCap |
| lineinfo.go, addr2line.go (buildDir) | M_LineInfo |
| filter_pkt.go, output_pkt.go, bpf_tracing.go (injectPktFilter, injectPktOutput), bpfsnoop_pkt_filter.h | M_PktSel |
| func_graph_proto.go | M_Gproto |
| type_proto.go | M_Tproto |
| traceable.c, bpf_kfuncs.go, populateFgraphTrampolineIPs | M_Traceable |
| traceGraphs, traceGraph, outputFuncInfo for graph events | M_Ghook |
| bpf_tracepoints.go, bpf_tracepoints_module.go, kernel_tracepoints.go; tracepoint.c, tracepoint_module.c | M_Tp |
| bpf_read_kernel.go, disasm.go, dump.go (listing), bpf_disasm.go, func_insn.go; read.c | M_Disasm |
| bpfsnoop_func_stack.go, bpfsnoop_stack_map.h | M_Stack |
| bpfsnoop_arg_tdigest.go | M_Tdigest |
| addr2line.go, addr2line_cache.go | M_A2l, M_Cache, M_Ready |

### Not modelled

* Text formatting (fmt verbs, colours, column widths, gopacket dumps, mybtf.DumpData), logging.
* The glob matcher, the C parser, DWARF and ELF readers, JSON/xz encoders, the disassembler (capstone): parameters or oracles of the models.
* Loading and verifying BPF programs, attaching links, perf events, ring-buffer internals, feature probes of the running kernel.
* main.go wiring (order of start-up steps) except where a model says so; cmd/ test helpers.
* arm64 variants, except where the model quantifies over the architecture constants.
* Go's weak memory model (races are modelled with sequentially consistent interleavings), integer overflow of `int` sizes (64-bit),
  memory exhaustion.
