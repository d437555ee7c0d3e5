{
 "claims": [
  {
   "property": "C01",
   "status": "partial",
   "theorems": [
    "C01_unpatch_restores",
    "C01_roundtrip",
    "C01_unpatch_success_refuted"
   ],
   "note": "Proved for an unpatch whose own reads and writes succeed, after any successful patching and any later change of the patient outside the bookkeeping areas. False when the read-back of the table fails (C01_unpatch_success_refuted: success reported, nothing restored)."
  },
  {
   "property": "C02",
   "status": "proved",
   "theorems": [
    "C02_patching_frame",
    "C02_patching_frame_with_rollback"
   ],
   "note": "All oracles and outcomes, with and without the roll-back (with it: nothing mapped in the first region-size bytes of the address space, see C55)."
  },
  {
   "property": "C03",
   "status": "proved",
   "theorems": [
    "C03_rollback_restores"
   ],
   "note": "No byte outside the region differs; the region itself is gone too when the tool knew its address."
  },
  {
   "property": "C04",
   "status": "partial",
   "theorems": [
    "C04_all_or_nothing_refuted",
    "C04_only_one_partial"
   ],
   "note": "False: C04_all_or_nothing_refuted. C04_only_one_partial: it holds of a process of which only one object has a patch, if the operations of the roll-back succeed. For several objects what holds instead is C127."
  },
  {
   "property": "C05",
   "status": "proved",
   "theorems": [
    "C05_unpatch_after_crash"
   ],
   "note": "Death at any remote operation, including the roll-back's."
  },
  {
   "property": "C06",
   "status": "proved",
   "theorems": [
    "C06_duplicate_refused"
   ],
   "note": ""
  },
  {
   "property": "C07",
   "status": "proved",
   "theorems": [
    "C07_layout_disjoint"
   ],
   "note": ""
  },
  {
   "property": "C08",
   "status": "proved",
   "theorems": [
    "C08_x86_jump_reaches_iff_in_range",
    "C08_x86_jump_size"
   ],
   "note": "iff: the written jump reaches the replacement exactly when the displacement fits 32 signed bits."
  },
  {
   "property": "C09",
   "status": "proved",
   "theorems": [
    "C09_aarch64_branch_reaches_iff_in_range",
    "C09_aarch64_branch_size"
   ],
   "note": "iff: reached exactly when the distance is word aligned and within +-128 MiB."
  },
  {
   "property": "C10",
   "status": "partial",
   "theorems": [
    "C10_riscv_jump_reaches_iff_in_range_partial",
    "C10_riscv_jump_size",
    "C10_riscv_jump_refuted"
   ],
   "note": "Exact condition proved; the code is wrong for the top 2 KiB of the +2 GiB range (C10_riscv_jump_refuted)."
  },
  {
   "property": "C11",
   "status": "partial",
   "theorems": [
    "C11_loongarch_branch_reaches_or_refused",
    "C11_loongarch_branch_size",
    "C11_loongarch_encodable_distance_refused_refuted"
   ],
   "note": "Reaches or refuses proved; one encodable distance (imm26 = 2^25-1) is refused (C11_loongarch_encodable_distance_refused_refuted). That a refusal leaves the code untouched is proved in the engine (C02/C03)."
  },
  {
   "property": "C12",
   "status": "proved",
   "theorems": [
    "C12_gaps_exact",
    "C12_gaps_sorted"
   ],
   "note": "iff over every address; order and distance of the gaps separately."
  },
  {
   "property": "C13",
   "status": "partial",
   "theorems": [
    "C13_region_free_and_near_partial",
    "C13_x86_jumps_reach",
    "C13_aarch64_jumps_reach",
    "C13_overlap_refuted",
    "C13_loongarch_reach_refuted",
    "C13_riscv_jumps_reach"
   ],
   "note": "Proved when no gap below the object ends in the last [size] bytes of the reach (edge_clear), with the jumps of x86-64, AArch64 and RISC-V shown to reach. False otherwise (C13_overlap_refuted: the region covers an existing mapping) and for LoongArch (C13_loongarch_reach_refuted: search distance 2 GiB, branch 128 MiB)."
  },
  {
   "property": "C14",
   "status": "proved",
   "theorems": [
    "C14_no_place_nothing_mapped"
   ],
   "note": "For the engine with the modelled search: every gap too small implies failure with memory unchanged; what the roll-back does then is C03/C55."
  },
  {
   "property": "C15",
   "status": "partial",
   "theorems": [
    "C15_patches_apart_partial",
    "C15_gaps_stay_free_partial",
    "C15_next_patch_partial",
    "C15_overlap_refuted"
   ],
   "note": "Proved for any sequence of placements under edge_clear for each; false without it (C15_overlap_refuted)."
  },
  {
   "property": "C16",
   "status": "proved",
   "theorems": [
    "C16_safe_iff",
    "C16_no_frame_in_replaced_code"
   ],
   "note": "iff: safe exactly when all could be looked at and no visible frame is in replaced code; hypotheses: functions not at address 0 and not wrapping, fewer than 2^32 threads."
  },
  {
   "property": "C17",
   "status": "partial",
   "theorems": [
    "C17_unreadable_stack_judged_safe_refuted",
    "C17_no_context_not_safe_partial"
   ],
   "note": "False: C17_unreadable_stack_judged_safe_refuted (a negative unw_step is only logged). What holds: C17_no_context_not_safe_partial."
  },
  {
   "property": "C18",
   "status": "proved",
   "theorems": [
    "C18_passed_means_safe_at_last_look",
    "C18_coroutine_not_forced",
    "C18_clear_passes",
    "C18_patch_writes_only_when_safe",
    "C18_unpatch_writes_only_when_safe"
   ],
   "note": "The check itself and, with the check inside the engine, every write outside the region (patching) or anywhere (unpatching)."
  },
  {
   "property": "C19",
   "status": "partial",
   "theorems": [
    "C19_runs_to_the_caller",
    "C19_no_caller_garbage_refuted",
    "C19_no_caller_stale_refuted"
   ],
   "note": "Proved when there is a frame outside; false when the replaced function is outermost (uninitialised or stale address, C19_no_caller_*_refuted)."
  },
  {
   "property": "C20",
   "status": "partial",
   "theorems": [
    "C20_breakpoints_removed",
    "C20_one_byte_breakpoints_removed",
    "C20_riscv_overlap_refuted",
    "C20_riscv_partial_write_refuted"
   ],
   "note": "Proved for any set of targets that do not overlap and failing writes that change nothing; one-byte breakpoints never overlap. False for the four-byte breakpoints of RISC-V: C20_riscv_overlap_refuted, C20_riscv_partial_write_refuted."
  },
  {
   "property": "C21",
   "status": "proved",
   "theorems": [
    "C21_code_and_registers_restored",
    "C21_registers_after_failure_refuted"
   ],
   "note": "Scratch code restored whatever failed (if the restoring write succeeds), registers after success. Beyond the claim: registers after a failure are not restored (C21_registers_after_failure_refuted)."
  },
  {
   "property": "C22",
   "status": "proved",
   "theorems": [
    "C22_write_exact",
    "C22_fallback_succeeds",
    "C22_end_of_mapping_refuted"
   ],
   "note": "Success means exactly the requested bytes; failure leaves old or new bytes inside and nothing changed outside. Word-wise writing can fail where a plain write succeeds (C22_end_of_mapping_refuted)."
  },
  {
   "property": "C23",
   "status": "partial",
   "theorems": [
    "C23_reads_right_partial",
    "C23_unreadable_reported_read_refuted",
    "C23_stale_after_short_read_refuted"
   ],
   "note": "Proved for any sequence of reads of readable memory with no failing pread. False: C23_unreadable_reported_read_refuted, C23_stale_after_short_read_refuted."
  },
  {
   "property": "C24",
   "status": "proved",
   "theorems": [
    "C24_mmap_classified",
    "C24_status_classified"
   ],
   "note": "mmap, mprotect and munmap, every 64-bit result; a kernel result of 0 for mmap also counts as failure."
  },
  {
   "property": "C25",
   "status": "partial",
   "theorems": [
    "C25_all_threads_held",
    "C25_id_reuse_refuted"
   ],
   "note": "Proved when thread ids are not used again during the attach; false otherwise (C25_id_reuse_refuted)."
  },
  {
   "property": "C26",
   "status": "partial",
   "theorems": [
    "C26_lookup_independent_of_history",
    "C26_stored_unique",
    "C26_query_independent_of_history",
    "C26_lookup_patches",
    "C26_query_then_lookup_refuted"
   ],
   "note": "Proved for any sequence of lookups, of queries, and for all objects of a process; false when queries and lookups are mixed (C26_query_then_lookup_refuted)."
  },
  {
   "property": "C27",
   "status": "proved",
   "theorems": [
    "C27_tree_is_map",
    "C27_insert_result",
    "C27_walk",
    "C27_strcmp_orders",
    "C27_start_cmp_orders",
    "C27_kpstrcmp_orders"
   ],
   "note": "Any comparison that orders the keys; the comparisons of the code are shown to. C128 proves the same of the pointers."
  },
  {
   "property": "C28",
   "status": "partial",
   "theorems": [
    "C28_accepted_iff_well_formed_partial",
    "C28_short_size_accepted_refuted",
    "C28_sections_outside_accepted_refuted"
   ],
   "note": "Proved: accepted iff magic, declared size and ELF header are good. False: the declared size may be less than the header, the section table outside the file."
  },
  {
   "property": "C29",
   "status": "partial",
   "theorems": [
    "C29_x86_section",
    "C29_x86_entry",
    "C29_x86_refuses",
    "C29_x86_accepts_only_known",
    "C29_field_past_section_end_refuted",
    "C29_tpoff_passed_over",
    "C29_tpoff_accepted_refuted",
    "C29_got_of_defined_symbol",
    "C29_got_of_defined_symbol_refuted"
   ],
   "note": "Proved: the value of every supported entry, single and for whole sections with disjoint fields, nothing else changed, unknown types and entries starting beyond the section refused. False: fields that end beyond the section are written (C29_field_past_section_end_refuted), TPOFF32/64 are accepted without effect (C29_tpoff_accepted_refuted), GOT references to defined symbols read the symbol instead of its address (C29_got_of_defined_symbol_refuted)."
  },
  {
   "property": "C30",
   "status": "partial",
   "theorems": [
    "C30_x86_exact_when_fits_partial",
    "C30_x86_truncation_accepted_refuted",
    "C30_riscv_refuses_partial",
    "C30_riscv_accepts",
    "C30_riscv_jal",
    "C30_riscv_jal_refuted",
    "C30_riscv_call_refuted",
    "C30_loongarch_refuses_partial",
    "C30_loongarch_accepts",
    "C30_loongarch_32_refuted"
   ],
   "note": "Proved: RISC-V 32-bit data, calls and HI20 refuse what is not a signed 32-bit number; LoongArch branches and pcaddi refuse targets out of reach; on x86-64 a value that fits is represented exactly. False in general: x86-64 truncates, RISC-V JAL and calls near the end of the range, LoongArch 32-bit data (the C30_..._refuted theorems); AArch64 see C31. Also what is accepted: C30_riscv_accepts, C30_riscv_jal (the whole reach of a jal, and nothing past it) and C30_loongarch_accepts."
  },
  {
   "property": "C31",
   "status": "partial",
   "theorems": [
    "C31_aarch64_section",
    "C31_aarch64_refuses",
    "C31_ldst32_refuted",
    "C31_ldst8_refuted",
    "C31_call_out_of_range_refuted",
    "C31_page_out_of_range_refuted",
    "C31_local_tls_skips_rest",
    "C31_local_tls_skips_rest_refuted",
    "C31_got_pair_partial",
    "C31_got_pair_page_end_refuted"
   ],
   "note": "Proved: per type only the immediate changes and decodes to the required operand, given targets in range; unknown types refused. False: LDST8 and LDST32 scale by 8, out-of-range branches and pages are accepted, a local thread-local relocation skips the rest of its section, the GOT pair is wrong at the end of a page (the C31_..._refuted theorems)."
  },
  {
   "property": "C32",
   "status": "partial",
   "theorems": [
    "C32_riscv_section",
    "C32_riscv_pcrel_pair_partial",
    "C32_riscv_refuses",
    "C32_riscv_pcrel_addend_refuted",
    "C32_riscv_rvc_jump_refuted",
    "C32_riscv_second_object_reference_refuted"
   ],
   "note": "Proved for sections without HI20-like relocations of undefined objects: only the immediate changes and decodes to the required one; PCREL pairs without addend. False: PCREL pairs with addend, RVC_JUMP, the second reference to an undefined object (the C32_..._refuted theorems)."
  },
  {
   "property": "C33",
   "status": "partial",
   "theorems": [
    "C33_loongarch_section_partial",
    "C33_loongarch_refuses",
    "C33_loongarch_pcala_hi20_refuted",
    "C33_loongarch_pair",
    "C33_loongarch_abs_hi20_refuted",
    "C33_loongarch_b16_refuted"
   ],
   "note": "Proved: data, LO12, B21, B26 and PCREL20_S2 relocations encode the required operand and change nothing else. For the HI20 types and B16, where the claim is false (the C33_..._refuted theorems), C33_loongarch_section_partial says what is stored (a quarter of the pages, the distance in bytes), and C33_loongarch_pair when pcalau12i + addi.d is right all the same: on the instruction's page or the one before."
  },
  {
   "property": "C34",
   "status": "partial",
   "theorems": [
    "C34_slot_reaches_target",
    "C34_slots_do_not_overlap",
    "C34_table_not_overrun",
    "C34_room_for_all",
    "C34_weak_function_refuted"
   ],
   "note": "Proved for every GLOBAL reference of type FUNC or OBJECT: own slot inside the table, executing it reaches the resolved address on four architectures, the table is never overrun and never too small. False for weak references (C34_weak_function_refuted)."
  },
  {
   "property": "C35",
   "status": "partial",
   "theorems": [
    "C35_first_exporter_partial",
    "C35_lookup_in_table",
    "C35_gap_between_tables_refuted",
    "C35_unreadable_library_refuted"
   ],
   "note": "Proved: lookup in a table laid out as ld.bfd does, first exporter among the libraries whose table could be read, any sorting function. False: a gap between the tables (C35_gap_between_tables_refuted), an unreadable library is passed over (C35_unreadable_library_refuted)."
  },
  {
   "property": "C36",
   "status": "partial",
   "theorems": [
    "C36_mappings_matched",
    "C36_translation",
    "C36_regular_object_accepted",
    "C36_relro_inside_segment_refuted",
    "C36_whole_segment_relro_refuted"
   ],
   "note": "Proved for regular program headers (RELRO at the start of a segment and smaller than it): matching, translation, acceptance. False otherwise: C36_relro_inside_segment_refuted, C36_whole_segment_relro_refuted."
  },
  {
   "property": "C37",
   "status": "partial",
   "theorems": [
    "C37_build_id_found_partial",
    "C37_no_build_id",
    "C37_unaligned_note_refuted",
    "C37_large_segment_refuted",
    "C37_other_length_refuted",
    "C37_note_by_file_offset_refuted"
   ],
   "note": "Proved for segments up to 128 bytes, preceding notes with sizes that are multiples of 4 and 20-byte identifiers. False otherwise: the C37_..._refuted theorems."
  },
  {
   "property": "C38",
   "status": "partial",
   "theorems": [
    "C38_only_requested",
    "C38_each_object_once",
    "C38_all_requested_partial",
    "C38_absent_patch_refused",
    "C38_count_returned",
    "C38_stops_at_failure",
    "C38_same_build_id_refuted"
   ],
   "note": "Proved from the memory map on: only requested objects carrying the patch, each once, with the data of a patch for their build id; all of them when build ids and patches are distinct; an absent patch is refused; the count; stopping at a failure. False for two mapped files with the same build id (C38_same_build_id_refuted)."
  },
  {
   "property": "C39",
   "status": "partial",
   "theorems": [
    "C39_read_back_partial",
    "C39_success_iff_written",
    "C39_cut_refused",
    "C39_long_id_refuted",
    "C39_buildid_length_refuted"
   ],
   "note": "Proved for build ids of 40 characters and patch ids of at most seven: accepted, ids and content read back, success iff everything was written, cut files refused. False: longer patch ids are cut (C39_long_id_refuted), wrong build id lengths are only logged (C39_buildid_length_refuted)."
  },
  {
   "property": "C40",
   "status": "partial",
   "theorems": [
    "C40_arguments_delivered_partial",
    "C40_not_early",
    "C40_executed_was_received",
    "C40_client_message",
    "C40_empty_argument_refuted",
    "C40_many_arguments_refuted",
    "C40_long_message_refuted",
    "C40_receive_error_refuted"
   ],
   "note": "Proved for at most 32 non-empty arguments in fewer than 4096 bytes, every segmentation and every interruption; nothing is executed early; what is executed was received. False: empty arguments, more than 32, 4096 bytes and more, errors of recv (the C40_..._refuted theorems)."
  },
  {
   "property": "C41",
   "status": "partial",
   "theorems": [
    "C41_writes_in_bounds",
    "C41_reads_received_partial",
    "C41_receive_error_refuted"
   ],
   "note": "Proved: no write out of bounds for every stream; nothing uninitialised is used unless recv fails. False: after a failing recv the uninitialised buffer is executed (C41_receive_error_refuted)."
  },
  {
   "property": "C42",
   "status": "partial",
   "theorems": [
    "C42_same_blocks_found_equal",
    "C42_same_files",
    "C42_split_function_refuted",
    "C42_unchanged_function"
   ],
   "note": "Proved for blocks: a block and a copy of it, with other comments, debug lines and blank lines, compare equal when no renames are recorded. Proved for whole files: when the two files have the same lines and blocks and the names tell the blocks apart (record tame), the output has no code of a patch and no entry of the table of functions. Refuted in general (C42_split_function_refuted): a function and a part split from it have one human name, the tree has only the first, and the unchanged part is put in the patch. Proved for one function among files that differ elsewhere (C42_unchanged_function): when it was joined with its new version and the words of its code mean the same (labels numbered anew, names of functions and variables that were joined with one another only), it is written as it was. Not covered there: words that are names of a function left out on request under another number, and variables that two old variables were joined with."
  },
  {
   "property": "C43",
   "status": "partial",
   "theorems": [
    "C43_equal_blocks_same_code",
    "C43_equal_other_same_text",
    "C43_comparison_ends",
    "C43_changed_constant_refuted",
    "C43_changed_string_refuted",
    "C43_changed_descriptor_refuted",
    "C43_one_sided_rename_refuted",
    "C43_shifted_statics_refuted",
    "C43_lines_equal_iff_tokens_correspond",
    "C43_no_renames_same_tokens"
   ],
   "note": "Lines: equal exactly when their tokens correspond through the two tables of renames (iff). Blocks: found equal only if the code is the same line by line, up to renames and the listed exceptions, and the comparison always ends. False where the exceptions hide a change: a constant in a line number argument, a string, a descriptor, a rename on one side (the _refuted theorems); and for whole files: a function that reads another of two static variables of one name (C43_shifted_statics_refuted)."
  },
  {
   "property": "C44",
   "status": "partial",
   "theorems": [
    "C44_table_is_map",
    "C44_tree_is_map",
    "C44_bijection_refuted"
   ],
   "note": "Proved: any sequence of additions and removals leaves the table (as a list and as the balanced tree) a map, and conflicts are noticed. False: two names can be renamed to the same name (C44_bijection_refuted)."
  },
  {
   "property": "C45",
   "status": "partial",
   "theorems": [
    "C45_tokens_are_the_line",
    "C45_every_token_nonempty_refuted",
    "C45_newline_loses_text_refuted"
   ],
   "note": "Proved for every line: the tokens are the only cutting of the line, glued with blanks they are the line, the loop ends. False: a blank line has one empty token (C45_every_token_nonempty_refuted); text behind a newline is dropped (C45_newline_loses_text_refuted), but lines read have none."
  },
  {
   "property": "C46",
   "status": "partial",
   "theorems": [
    "C46_blocks_cover_file",
    "C46_cutting_ends",
    "C46_every_line_refuted",
    "C46_static_variable_global_refuted",
    "C46_labels",
    "C46_global_needs_globl"
   ],
   "note": "Proved for every file: blocks in order, disjoint, non-empty, distinct names, lines kept, each line in exactly one block or empty or a repeated .weak/.globl line; ends with blocks or an error. False that every line is in a block (C46_every_line_refuted); a static variable before a global one is marked global (C46_static_variable_global_refuted). C46_global_needs_globl: without a .globl directive no block of the file is taken for a global one."
  },
  {
   "property": "C47",
   "status": "proved",
   "theorems": [
    "C47_relocations",
    "C47_symbols",
    "C47_sections",
    "C47_original_functions",
    "C47_other_symbols",
    "C47_limit"
   ],
   "note": "Relocations and symbols for every decoded object: each, put back at the address its section had in the linked patch, is the former; nothing else of a section changes but its address. On RISC-V and LoongArch functions that the original has too are instead given the original's place (C47_original_functions). libelf's decoding and encoding are not modelled."
  },
  {
   "property": "C48",
   "status": "partial",
   "theorems": [
    "C48_identical_partial",
    "C48_ends",
    "C48_short_write_refuted",
    "C48_outside_refuted",
    "C48_old_file_refuted"
   ],
   "note": "Proved when every write is whole or fails and the old output could be removed, for all short reads, interrupts and failures; it always ends. False after a short write, where the whole length is written again (C48_short_write_refuted, C48_outside_refuted), and when the old file stays (C48_old_file_refuted)."
  },
  {
   "property": "C49",
   "status": "partial",
   "theorems": [
    "C49_only_debug_dropped",
    "C49_filter_ends",
    "C49_text_dropped_refuted",
    "C49_section_tail_refuted",
    "C49_empty_statement_refuted",
    "C49_label_dropped_refuted"
   ],
   "note": "Proved: only debug lines and whole groups of debug information (as DbgSpec.group says) are dropped, everything else is emitted unchanged and in order, and the filter ends. False: a code section whose label begins like a debug one, the rest of a line, an empty statement, a label are dropped or changed (the _refuted theorems)."
  },
  {
   "property": "C50",
   "status": "partial",
   "theorems": [
    "C50_demangle",
    "C50_registers",
    "C50_aarch64_refuted",
    "C50_riscv_refuted",
    "C50_riscv_others",
    "C50_only_saved"
   ],
   "note": "Proved on x86-64: demangling inverts glibc's mangling for all pointers and guards, and libunwind is told the registers of the saved context. False on AArch64 (layout of another machine) and for three registers on RISC-V (demangled although not mangled). C50_only_saved: no other register is answered from the buffer."
  },
  {
   "property": "C51",
   "status": "partial",
   "theorems": [
    "C51_visits_each_once_partial",
    "C51_result",
    "C51_one_process",
    "C51_stop_refuted"
   ],
   "note": "Proved for listings of plain names and numerals, when no attempt answers -2: each eligible process once, no other; the result. False when an attempt answers -2 (C51_stop_refuted)."
  },
  {
   "property": "C52",
   "status": "partial",
   "theorems": [
    "C52_unknown_command_fails",
    "C52_too_few_arguments_fail",
    "C52_unknown_option_runs_nothing",
    "C52_unknown_option_refuted",
    "C52_missing_option_refuted",
    "C52_help_refuted"
   ],
   "note": "Proved: unknown command and too few arguments fail; an unknown option runs nothing. False: an unknown or missing option gives 0 (C52_unknown_option_refuted, C52_missing_option_refuted), help gives -1 (C52_help_refuted)."
  },
  {
   "property": "C53",
   "status": "proved",
   "theorems": [
    "C53_table_read_back"
   ],
   "note": "For readable memory; the reader's behaviour on failing reads is C01_unpatch_success_refuted / C23."
  },
  {
   "property": "C54",
   "status": "proved",
   "theorems": [
    "C54_new_function_not_written",
    "C54_new_function_not_restored"
   ],
   "note": "The frame C02 gives the same for whole runs."
  },
  {
   "property": "C55",
   "status": "partial",
   "theorems": [
    "C55_failed_allocation_refuted",
    "C55_nothing_low_partial"
   ],
   "note": "False: C55_failed_allocation_refuted (munmap(0, size)). C55_nothing_low_partial: with nothing mapped in [0, size) all that the patient had mapped is as before."
  },
  {
   "property": "C56",
   "status": "partial",
   "theorems": [
    "C56_cancel_after_crash_refuted",
    "C56_when_partial"
   ],
   "note": "False: C56_cancel_after_crash_refuted. C56_when_partial: it can be cancelled exactly if the region is there and already read-only and executable, and then all is restored."
  },
  {
   "property": "C57",
   "status": "partial",
   "theorems": [
    "C57_overlapping_entries_refuted"
   ],
   "note": "False of the engine: C57_overlapping_entries_refuted. With non-overlapping entries it is C01."
  },
  {
   "property": "C58",
   "status": "proved",
   "theorems": [
    "C58_patch_effective",
    "C58_x86_calls_replacement"
   ],
   "note": "For all architectures in terms of the generated bytes; on x86-64 down to the executed instruction."
  },
  {
   "property": "C59",
   "status": "partial",
   "theorems": [
    "C59_region_leak_refuted",
    "C59_known_partial"
   ],
   "note": "False: C59_region_leak_refuted. C59_known_partial: true when the tool knows the address."
  },
  {
   "property": "C60",
   "status": "partial",
   "theorems": [
    "C60_place_exists_but_not_found_refuted",
    "C60_found_iff",
    "C60_found_partial"
   ],
   "note": "False as stated: C60_place_exists_but_not_found_refuted. C60_found_iff says exactly when the search finds a place (pairs of gaps, one on each side, going outwards); C60_found_partial gives the case in which the gap next to the object has room."
  },
  {
   "property": "C61",
   "status": "partial",
   "theorems": [
    "C61_new_functions_ignored_refuted",
    "C61_unmapped_while_running_refuted",
    "C61_replacements_partial"
   ],
   "note": "False for functions that exist only in the patch: C61_new_functions_ignored_refuted, and inside the engine C61_unmapped_while_running_refuted. C61_replacements_partial: no visible frame is in code that replaced a function."
  },
  {
   "property": "C62",
   "status": "partial",
   "theorems": [
    "C62_x86_riscv_breakpoint_traps",
    "C62_aarch64_never_a_breakpoint_refuted",
    "C62_loongarch_not_a_breakpoint_refuted"
   ],
   "note": "True for x86-64 and RISC-V; false for AArch64 (for every instruction) and LoongArch."
  },
  {
   "property": "C63",
   "status": "partial",
   "theorems": [
    "C63_threads_stopped_partial",
    "C63_still_moving_refuted",
    "C63_pc_after_breakpoint_refuted"
   ],
   "note": "Proved when nothing goes wrong in the wait; false otherwise: C63_still_moving_refuted, C63_pc_after_breakpoint_refuted."
  },
  {
   "property": "C64",
   "status": "partial",
   "theorems": [
    "C64_failure_reported_as_success_refuted",
    "C64_lost_restore_reported_as_success_refuted",
    "C64_place_partial"
   ],
   "note": "False: C64_failure_reported_as_success_refuted, C64_lost_restore_reported_as_success_refuted. C64_place_partial: if all breakpoints were written, all threads resumed and every event is one expected, each thread with a target is at it afterwards, or where the tool's SIGSTOP met it, or gone; the result does not say which."
  },
  {
   "property": "C65",
   "status": "partial",
   "theorems": [
    "C65_remote_execution_passes_signals_on",
    "C65_attach_passes_signals_on",
    "C65_run_forward_swallows_refuted"
   ],
   "note": "Proved for remote execution and attaching; false for running forward (C65_run_forward_swallows_refuted)."
  },
  {
   "property": "C66",
   "status": "partial",
   "theorems": [
    "C66_not_executed_but_success_refuted",
    "C66_result_is_the_kernels_partial"
   ],
   "note": "False: C66_not_executed_but_success_refuted. What holds when the code did run: C66_result_is_the_kernels_partial."
  },
  {
   "property": "C67",
   "status": "proved",
   "theorems": [
    "C67_found_patch_stays"
   ],
   "note": ""
  },
  {
   "property": "C68",
   "status": "partial",
   "theorems": [
    "C68_before_script_gate_partial",
    "C68_script_not_run_goes_on_refuted"
   ],
   "note": "Proved when the script was run and waited for; false when fork or waitpid fails (C68_script_not_run_goes_on_refuted)."
  },
  {
   "property": "C69",
   "status": "proved",
   "theorems": [
    "C69_description_complete"
   ],
   "note": "Any chunking of reads; the int counter does not overflow (files below 2 GiB)."
  },
  {
   "property": "C70",
   "status": "partial",
   "theorems": [
    "C70_single_file_own_build_id_partial",
    "C70_directory_other_build_id_refuted"
   ],
   "note": "Proved for a single-file store; false for a directory (C70_directory_other_build_id_refuted)."
  },
  {
   "property": "C71",
   "status": "partial",
   "theorems": [
    "C71_rela_sections_in_order",
    "C71_rel_section_passed_over",
    "C71_rel_section_ignored_refuted",
    "C71_target",
    "C71_no_symbol_table"
   ],
   "note": "Proved: exactly the sections with addends, in order. False: sections without addends are passed over instead of refused (C71_rel_section_ignored_refuted). C71_target names the section a relocation section is for and the table its symbols come from; C71_no_symbol_table: without a symbol table every loading fails."
  },
  {
   "property": "C72",
   "status": "partial",
   "theorems": [
    "C72_headers_from_memory",
    "C72_headers_from_file",
    "C72_failed_read_forgotten_refuted"
   ],
   "note": "Proved for headers read in full, from memory and from the file. False after a failed read (C72_failed_read_forgotten_refuted)."
  },
  {
   "property": "C73",
   "status": "partial",
   "theorems": [
    "C73_shared_library_test",
    "C73_other_library_with_interpreter_refuted"
   ],
   "note": "Proved: the exact condition the code tests. False as a classification (C73_other_library_with_interpreter_refuted)."
  },
  {
   "property": "C74",
   "status": "partial",
   "theorems": [
    "C74_own_symbols_follow_their_section",
    "C74_undefined_untyped_accepted_refuted"
   ],
   "note": "Proved for every symbol defined in the patch. False: an undefined untyped symbol gets address 0 (C74_undefined_untyped_accepted_refuted)."
  },
  {
   "property": "C75",
   "status": "partial",
   "theorems": [
    "C75_each_mapping_in_one_object",
    "C75_same_object_iff_same_file_partial",
    "C75_inode_refuted",
    "C75_object_name"
   ],
   "note": "Proved: every mapping in exactly one object, same object iff device and inode agree modulo 2^32. False for inodes that differ by 2^32 (C75_inode_refuted)."
  },
  {
   "property": "C76",
   "status": "partial",
   "theorems": [
    "C76_patches_are_mappings_with_magic",
    "C76_file_taken_for_patch_refuted"
   ],
   "note": "Proved: the patch objects are the mappings with the magic string whose name begins with [anonymous], in order, with their contents. False: a file of that name is taken for a patch (C76_file_taken_for_patch_refuted)."
  },
  {
   "property": "C77",
   "status": "partial",
   "theorems": [
    "C77_name_buffer_partial",
    "C77_long_path_refuted"
   ],
   "note": "Proved when patches are only in mappings without a path. False for a file in a long path (C77_long_path_refuted)."
  },
  {
   "property": "C78",
   "status": "partial",
   "theorems": [
    "C78_info_succeeds",
    "C78_info_lists_only_present",
    "C78_info_lists_all_partial",
    "C78_same_build_id_refuted"
   ],
   "note": "Proved: succeeds, lists only what is there, each once, and everything when build ids are distinct. False for a second file with the same build id (C78_same_build_id_refuted)."
  },
  {
   "property": "C79",
   "status": "partial",
   "theorems": [
    "C79_scratch_is_executable",
    "C79_other_library_refuted"
   ],
   "note": "Proved: the first executable mapping whose name begins with libc. False: that can be another library (C79_other_library_refuted)."
  },
  {
   "property": "C80",
   "status": "partial",
   "theorems": [
    "C80_patch_runs",
    "C80_unpatch_runs",
    "C80_info_runs",
    "C80_patch_all",
    "C80_options_last_refuted",
    "C80_joined_refuted",
    "C80_all_after_pid_refuted",
    "C80_missing_file_refuted",
    "C80_bad_pid_refuted",
    "C80_info_all_refuted"
   ],
   "note": "Proved for options before operands with at least three words. False in the other forms: the _refuted theorems."
  },
  {
   "property": "C81",
   "status": "partial",
   "theorems": [
    "C81_own_arguments_partial",
    "C81_stale_refuted"
   ],
   "note": "Proved when no word holds several options. False otherwise: the parser keeps a pointer into the previous message (C81_stale_refuted)."
  },
  {
   "property": "C82",
   "status": "partial",
   "theorems": [
    "C82_applied_only_after_success",
    "C82_patch_result",
    "C82_released_once_and_last",
    "C82_unapplied_only_after_success",
    "C82_after_script_refuted",
    "C82_threads",
    "C82_kickstart",
    "C82_attach"
   ],
   "note": "Proved: order of steps, release once and last, result. False: a failing after-script is not reported (C82_after_script_refuted). C82_threads, C82_kickstart and C82_attach: the stages inside attaching, with the error each returns and what they leave traced."
  },
  {
   "property": "C83",
   "status": "partial",
   "theorems": [
    "C83_released_exactly_once_partial",
    "C83_failed_open_refuted",
    "C83_just_started_refuted",
    "C83_execve_refuted"
   ],
   "note": "Proved for a process already running that could be opened, and that nothing is then released twice. False: leak when opening fails late, double release for just started processes (the _refuted theorems)."
  },
  {
   "property": "C84",
   "status": "partial",
   "theorems": [
    "C84_file_read_line_by_line",
    "C84_long_line_cut_refuted",
    "C84_lines_have_no_newline",
    "C84_statements_keep_the_line",
    "C84_comment_is_kept_whole_refuted"
   ],
   "note": "Proved for files with lines shorter than the buffer and without NUL bytes; statements for every line. False: a line of 65535 bytes or more is cut (C84_long_line_cut_refuted), a comment beginning with a word is cut at its semicolons (C84_comment_is_kept_whole_refuted)."
  },
  {
   "property": "C85",
   "status": "proved",
   "theorems": [
    "C85_rename_replaces_tokens",
    "C85_rename_copies_other_lines"
   ],
   "note": "For every line without a newline and every table."
  },
  {
   "property": "C86",
   "status": "partial",
   "theorems": [
    "C86_load_keeps_meaning",
    "C86_load_narrow_refuted",
    "C86_load_register_refuted",
    "C86_store_keeps_meaning",
    "C86_store_red_zone_refuted",
    "C86_store_stack_pointer_refuted",
    "C86_other_lines_unchanged",
    "C86_string_move_refuted"
   ],
   "note": "Proved: loads into 32-bit and 64-bit registers; stores of a register other than the stack pointer or of a constant, up to the eight bytes below the stack. False: loads into parts of registers, the red zone, a store of the stack pointer, moves without operands (the _refuted theorems)."
  },
  {
   "property": "C87",
   "status": "partial",
   "theorems": [
    "C87_sections_follow_directives",
    "C87_executable",
    "C87_known",
    "C87_standard",
    "C87_no_flags_refuted",
    "C87_nested_push_refuted",
    "C87_previous_after_pop_refuted",
    "C87_first_previous_refuted"
   ],
   "note": "Proved for simple files (see SectSpec.simple). False for sections pushed in one another, .previous after .popsection, .previous at the start (the _refuted theorems). Which sections count as executable is proved too (C87_executable, C87_known, C87_standard); false for a .section directive without flags (C87_no_flags_refuted)."
  },
  {
   "property": "C88",
   "status": "partial",
   "theorems": [
    "C88_listed",
    "C88_scan_partial",
    "C88_failed_read_refuted",
    "C88_cycle_refuted",
    "C88_refused",
    "C88_other_program_refuted"
   ],
   "note": "Proved: a successful walk of the list has found exactly its coroutines, for every answer of the kernel; the scan of the heap when no read fails; a known program is refused otherwise. False: a failed read is not noticed by the scan, a cyclic list is followed for ever, other programs are taken to have none (the _refuted theorems). locate_start_context_symbol is C134; libunwind itself is not modelled."
  },
  {
   "property": "C89",
   "status": "partial",
   "theorems": [
    "C89_above_partial",
    "C89_red_zone_refuted"
   ],
   "note": "Proved up to the entry of makecontext: nothing at or above the stack pointer changes. False: the bytes below it are written (C89_red_zone_refuted). With a makecontext that keeps to its own stack, nothing outside that stack changes over the whole call (C134_start_done)."
  },
  {
   "property": "C90",
   "status": "partial",
   "theorems": [
    "C90_sections",
    "C90_layout_partial",
    "C90_room",
    "C90_riscv_refuted",
    "C90_unaligned_refuted"
   ],
   "note": "Contents proved for all; layout when alignments are powers of two and the first offset is aligned (C90_layout_partial). False for a section whose header asks for alignment 0, which is put over the ELF header (C90_unaligned_refuted), and on RISC-V, where the jump takes eight bytes and five are asked for (C90_riscv_refuted)."
  },
  {
   "property": "C91",
   "status": "partial",
   "theorems": [
    "C91_only_same_name",
    "C91_all_partial",
    "C91_skipped_refuted",
    "C91_last_refuted"
   ],
   "note": "The first half for all pairs of files; the second when the patch has all the sections of the original, in their order (C91_all_partial). False when one is missing: the one after it is left out too (C91_skipped_refuted), or the whole fails (C91_last_refuted)."
  },
  {
   "property": "C92",
   "status": "partial",
   "theorems": [
    "C92_target",
    "C92_section",
    "C92_address",
    "C92_own_variable_refuted",
    "C92_outside_refuted",
    "C92_undefined_only_versioned",
    "C92_versioned_refuted",
    "C92_kinds",
    "C92_versioned",
    "C92_file",
    "C92_file_rel"
   ],
   "note": "Proved for all inputs on x86-64 and AArch64 (C92_section), and one relocation at a time on all four (C92_target). A load from the table gives the address if the symbol is in none of the patch's own sections (C92_address); false for those (C92_own_variable_refuted). False: a field at a section's start is looked at outside it (C92_outside_refuted); on RISC-V and LoongArch a versioned symbol that is defined becomes undefined (C92_versioned_refuted). For a whole file with any number of relocation sections: C92_file, C92_file_rel. C92_kinds: by kind of symbol, which relocations are redirected, copied or refused; C92_versioned: on the machines that copy."
  },
  {
   "property": "C93",
   "status": "partial",
   "theorems": [
    "C93_slot_partial",
    "C93_found",
    "C93_local_exec",
    "C93_module_refuted",
    "C93_others",
    "C93_others_refuted",
    "C93_null_refuted",
    "C93_loongarch",
    "C93_loongarch_refuted",
    "C93_aarch64_partial",
    "C93_aarch64_refuted",
    "C93_loongarch_local_exec",
    "C93_riscv_slot",
    "C93_riscv_found",
    "C93_by_name",
    "C93_other_kinds",
    "C93_riscv_local_exec_refuted",
    "C93_riscv_local_exec"
   ],
   "note": "x86-64: proved for the program's own variables when .rela.dyn has no entries for module numbers and module offsets without symbol (C93_slot_partial), with completeness (C93_found) and local-exec (C93_local_exec). False with a module number's entry before it (C93_module_refuted), for other libraries' variables (C93_others_refuted), with a NULL write when the original has another kind of symbol (C93_null_refuted), on LoongArch (C93_loongarch_refuted), on AArch64 beyond the section's first page (C93_aarch64_refuted). LoongArch local-exec as on x86 (C93_loongarch_local_exec); other kinds of reference are refused (C93_other_kinds); RISC-V accepts local-exec whatever the original has (C93_riscv_local_exec_refuted). C93_riscv_slot and C93_riscv_found give RISC-V both ways; C93_by_name the variables of other libraries on x86-64 and RISC-V. C93_riscv_local_exec: what RISC-V makes of local-exec references."
  },
  {
   "property": "C94",
   "status": "proved",
   "theorems": [
    "C94_generated_file",
    "C94_comm"
   ],
   "note": "For every run that ends with an output (C94_generated_file); GenOut.v says what each part is. What the assembler makes of the text is not modelled."
  },
  {
   "property": "C97",
   "status": "proved",
   "theorems": [
    "C97_info_entry"
   ],
   "note": "The text of the entry; the assembler is not modelled."
  },
  {
   "property": "C98",
   "status": "partial",
   "theorems": [
    "C98_option",
    "C98_option_refuted",
    "C98_list_partial",
    "C98_other_file_refuted",
    "C98_config",
    "C98_config_refuted",
    "C98_no_config"
   ],
   "note": "Proved: what the options and the lists select (C98_option, C98_list_partial, C98_config). False: beyond 32 symbols memory is overwritten (C98_option_refuted), a file's name need only begin with the one given (C98_other_file_refuted), a line need only begin with the function's name (C98_config_refuted)."
  },
  {
   "property": "C95",
   "status": "partial",
   "theorems": [
    "C95_changes_emitted"
   ],
   "note": "Proved for every run that ends with an output (C95_changes_emitted), where code is the same up to names that the two tables let stand for one another. That the tables are right is false for two statics of one name (C43_shifted_statics_refuted) and with the exceptions of the comparison (C43). A variable may also be joined with a block without name."
  },
  {
   "property": "C96",
   "status": "partial",
   "theorems": [
    "C96_new_names",
    "C96_left_out_name_refuted"
   ],
   "note": "C96_new_names, for every run with an output. Labels must not be names of other blocks. False for a function that is left out whose name the compiler numbered otherwise: it keeps the name of the new file, which nothing defines (C96_left_out_name_refuted). Nothing is said of the name of a variable that is joined with a function."
  },
  {
   "property": "C99",
   "status": "partial",
   "theorems": [
    "C99_configuring",
    "C99_not_set_up",
    "C99_nothing_to_patch",
    "C99_handed_over_unchanged",
    "C99_define_in_two_words_refuted",
    "C99_joined_option_refuted"
   ],
   "note": "Proved for every environment and command line: what is handed over is unchanged, and when. False: a macro given as -D NAME in two words counts as a second file, so that file is compiled without the patch (C99_define_in_two_words_refuted); -Tscript and -emain skip the next word (C99_joined_option_refuted)."
  },
  {
   "property": "C100",
   "status": "partial",
   "theorems": [
    "C100_compile",
    "C100_configuration",
    "C100_default_name_refuted",
    "C100_source_overwritten_refuted",
    "C100_assembler_from_stdin_refuted"
   ],
   "note": "Proved for command lines of the described form (wd_ok: options the wrapper can tell from files, one input, at most one -x, names shorter than PATH_MAX, the list of removed arguments in order). False without it: default output names of foo.cpp (C100_default_name_refuted), a source without suffix is overwritten (C100_source_overwritten_refuted), assembler from the standard input (C100_assembler_from_stdin_refuted)."
  },
  {
   "property": "C101",
   "status": "partial",
   "theorems": [
    "C101_default_removes_g",
    "C101_only_listed_removed",
    "C101_sorted_list_partial",
    "C101_listed_argument_stays_refuted"
   ],
   "note": "Proved for the default, for sorted lists at addresses where the byte order of the pointers is that of the words, and that nothing else is removed. False in general: C101_listed_argument_stays_refuted."
  },
  {
   "property": "C102",
   "status": "partial",
   "theorems": [
    "C102_failure_ends_the_build",
    "C102_killed_tool_refuted"
   ],
   "note": "Proved with success as the wrapper sees it (exit status 0). False for a program killed by a signal (C102_killed_tool_refuted)."
  },
  {
   "property": "C103",
   "status": "partial",
   "theorems": [
    "C103_stages_pair_up",
    "C103_one_file_each",
    "C103_root_directory_refuted",
    "C103_original_overwritten_refuted"
   ],
   "note": "Proved. False for files in the root directory (C103_root_directory_refuted) and for x and x.original (C103_original_overwritten_refuted)."
  },
  {
   "property": "C104",
   "status": "partial",
   "theorems": [
    "C104_build",
    "C104_appended_arguments_refuted",
    "C104_cc_suffix_refuted",
    "C104_language_kept_refuted",
    "C104_null_input_refuted"
   ],
   "note": "Proved when no more arguments are appended than words dropped. False beyond: C104_appended_arguments_refuted (read outside an array); .cc is not a source file (C104_cc_suffix_refuted), -x stays (C104_language_kept_refuted), /dev/null (C104_null_input_refuted)."
  },
  {
   "property": "C105",
   "status": "partial",
   "theorems": [
    "C105_notified_process_patched",
    "C105_only_on_request",
    "C105_missing_argument_refuted",
    "C105_trailing_text_refuted",
    "C105_long_directory_refuted",
    "C105_start"
   ],
   "note": "Proved for every run of the server (descriptors as record started says, message contents by C40). False: storage without an argument sets the empty name (C105_missing_argument_refuted), 5x7 is taken for 5 (C105_trailing_text_refuted), a directory of 4096 bytes or more on the command line is written outside the array (C105_long_directory_refuted). SIGTERM is modelled between connections only. C105_only_on_request: the argument has a digit."
  },
  {
   "property": "C106",
   "status": "partial",
   "theorems": [
    "C106_one_child",
    "C106_no_child_left",
    "C106_signals_its_child_partial",
    "C106_run",
    "C106_signals_another_refuted",
    "C106_kill_everything_refuted"
   ],
   "note": "Proved for one child at a time, none left at the end, what the client is told; for signals if no kill command names a number the server got from fork. False otherwise: after kill the number is kept and signalled again (C106_signals_another_refuted); kill -1 (C106_kill_everything_refuted)."
  },
  {
   "property": "C107",
   "status": "partial",
   "theorems": [
    "C107_output_to_its_client",
    "C107_not_to_another_client",
    "C107_descriptors_kept",
    "C107_program_started",
    "C107_program_output_refuted",
    "C107_listening_socket_kept_refuted",
    "C107_no_standard_output_refuted",
    "C107_few_descriptors_refuted"
   ],
   "note": "Proved if standard output and error are open, 103 descriptors are allowed and one below 101 is free. False: the program started by run has neither standard output nor error (C107_program_output_refuted) but the listening socket (C107_listening_socket_kept_refuted); connections stay open if the server has no standard output or a low limit (C107_no_standard_output_refuted, C107_few_descriptors_refuted). Line buffering of stdout is not modelled."
  },
  {
   "property": "C108",
   "status": "partial",
   "theorems": [
    "C108_goes_on",
    "C108_stops",
    "C108_terminated",
    "C108_accept_error_refuted",
    "C108_descriptor_101_refuted",
    "C108_silent_client_refuted",
    "C108_two_servers_refuted"
   ],
   "note": "Proved for clients that send a whole message or go away. False: one failed accept ends the server (C108_accept_error_refuted), a silent client blocks it (C108_silent_client_refuted), a failed exec leaves a second server (C108_two_servers_refuted), a listening descriptor 101 is overwritten (C108_descriptor_101_refuted). C108_terminated: SIGTERM ends the server with status 143 after exactly the connections accepted before."
  },
  {
   "property": "C109",
   "status": "partial",
   "theorems": [
    "C109_same_socket",
    "C109_default_socket",
    "C109_long_name_refused",
    "C109_client_name_refuted",
    "C109_abstract_name_refuted",
    "C109_relative_name_refuted",
    "C109_no_socket_refuted"
   ],
   "note": "Proved for names that start with / and have at most 106 bytes. False: longer ones in the client (C109_client_name_refuted), abstract and relative names (C109_abstract_name_refuted, C109_relative_name_refuted), no socket (C109_no_socket_refuted)."
  },
  {
   "property": "C110",
   "status": "partial",
   "theorems": [
    "C110_lines_read",
    "C110_name",
    "C110_deleted",
    "C110_blank_in_path_refuted",
    "C110_long_path_refuted",
    "C110_unset_numbers_refuted",
    "C110_inode_refuted"
   ],
   "note": "Proved for lines of at most 1023 characters, with the inode modulo 2^32 and the name up to its first blank. False otherwise: longer lines are taken for several (C110_long_path_refuted, C110_unset_numbers_refuted), a blank in a directory's name (C110_blank_in_path_refuted), inodes above 2^32 (C110_inode_refuted)."
  },
  {
   "property": "C111",
   "status": "partial",
   "theorems": [
    "C111_entry_point",
    "C111_no_entry_point",
    "C111_half_a_pair_refuted"
   ],
   "note": "Proved. False for a file that ends in the middle of the pair (C111_half_a_pair_refuted), which the kernel does not produce."
  },
  {
   "property": "C112",
   "status": "partial",
   "theorems": [
    "C112_last_character_lost",
    "C112_long_name_partial",
    "C112_short_name_refuted",
    "C112_qemu",
    "C112_loader",
    "C112_ordinary_program_refuted",
    "C112_no_argument_refuted",
    "C112_unset_bytes_refuted",
    "C112_deleted_refuted",
    "C112_test_program_refuted"
   ],
   "note": "The name lacks its last character (C112_last_character_lost, for every program); it is right for names of 16 bytes and more. Virtual machines and the loader are recognised, the latter's program too. False: C112_short_name_refuted, other programs starting with ld, options of the loader, no argument, deleted files, the test programs."
  },
  {
   "property": "C113",
   "status": "partial",
   "theorems": [
    "C113_first_mmap",
    "C113_entry_point",
    "C113_aarch64_refuted",
    "C113_loongarch_refuted",
    "C113_signal_refuted",
    "C113_nothing_handed_on",
    "C113_signal_lost_refuted",
    "C113_not_an_elf_refuted"
   ],
   "note": "Proved for x86 (without signals) and RISC-V. False on aarch64 and LoongArch (wrong registers), with a signal on x86, signals are lost elsewhere; the first mmap need not be of the program (the _refuted theorems)."
  },
  {
   "property": "C114",
   "status": "partial",
   "theorems": [
    "C114_handshake",
    "C114_succeeds",
    "C114_not_attached",
    "C114_failure",
    "C114_thread_group",
    "C114_thread_group_missing",
    "C114_aarch64_refuted",
    "C114_loongarch_refuted",
    "C114_ones_refuted"
   ],
   "note": "Proved for x86 and RISC-V; what wait_for_stop itself does is C65. False on aarch64 and LoongArch, where the breakpoint is not recognised, and for a word of ones before the program counter."
  },
  {
   "property": "C115",
   "status": "partial",
   "theorems": [
    "C115_shown",
    "C115_one_line",
    "C115_ambiguous_refuted"
   ],
   "note": "Proved. That two command lines are told apart is false since a backslash is not marked (C115_ambiguous_refuted)."
  },
  {
   "property": "C116",
   "status": "partial",
   "theorems": [
    "C116_gives_back",
    "C116_success",
    "C116_refused",
    "C116_only_the_output",
    "C116_cut",
    "C116_same_file_refuted",
    "C116_same_file_is_lost",
    "C116_not_a_patch_refuted",
    "C116_two_gigabytes",
    "C116_four_gigabytes_refuted"
   ],
   "note": "Proved for what follows the header up to 2 GB less a page, and the exact outcome up to 4 GB. False beyond 4 GB, where a part is written and counts as success (C116_four_gigabytes_refuted), if the output is the input (C116_same_file_refuted), and the magic string is not looked at (C116_not_a_patch_refuted)."
  },
  {
   "property": "C117",
   "status": "partial",
   "theorems": [
    "C117_shows",
    "C117_short_refused",
    "C117_success",
    "C117_long_ids_refuted",
    "C117_not_a_patch_refuted",
    "C117_unterminated_refuted",
    "C117_determined"
   ],
   "note": "Proved for ids of at most seven characters. False: longer ids are not told apart (C117_long_ids_refuted), other files are shown too (C117_not_a_patch_refuted), and behind an unterminated build id memory is shown (C117_unterminated_refuted, exactly when: C117_determined)."
  },
  {
   "property": "C118",
   "status": "partial",
   "theorems": [
    "C118_convert",
    "C118_show",
    "C118_show_changes_nothing",
    "C118_changes",
    "C118_unknown_option",
    "C118_joined_refuted",
    "C118_joined_show_refuted",
    "C118_silent_refuted",
    "C118_meaning",
    "C118_status"
   ],
   "note": "Proved. False for joined options (C118_joined_refuted, C118_joined_show_refuted); without -c and -H it fails without a message (C118_silent_refuted)."
  },
  {
   "property": "C119",
   "status": "partial",
   "theorems": [
    "C119_given_back_partial",
    "C119_attach_and_give_back",
    "C119_wait_turns",
    "C119_killed_hangs",
    "C119_killed_refuted",
    "C119_cut_short_refuted",
    "C119_stays_traced_refuted"
   ],
   "note": "Proved for threads that are stopped, gone or dead as the tool believes, and for attaching followed by giving back (C119_attach_and_give_back). False: a process of several threads killed while it is attached makes the tool hang (C119_killed_hangs for every such process, C119_killed_refuted: the other order would end); so does a thread whose wait was cut short (C119_cut_short_refuted); a thread whose wait failed while attaching stays traced (C119_stays_traced_refuted). waitpid interrupted by a signal is not modelled."
  },
  {
   "property": "C120",
   "status": "proved",
   "theorems": [
    "C120_threads_listed",
    "C120_kept_once"
   ],
   "note": "The kernel's names are numerals below 2^31. A failing realloc frees the old array, which the model does not follow."
  },
  {
   "property": "C121",
   "status": "partial",
   "theorems": [
    "C121_operation",
    "C121_run",
    "C121_loops",
    "C121_position",
    "C121_safe_loop",
    "C121_plain_loop_not_safe",
    "C121_move",
    "C121_rotate",
    "C121_comments_refuted"
   ],
   "note": "Proved for the operations the tools use. False: list_add puts the entry last, not after the head as its comment says, and list_move makes it the last and not the first (C121_comments_refuted). list_replace, list_splice and the loops the tools do not use are C155 and C156. C121_position and C121_rotate: list_is_last, list_is_singular and rotation."
  },
  {
   "property": "C122",
   "status": "proved",
   "theorems": [
    "C122_all_freed_once"
   ],
   "note": "The lists and their entries; the other blocks an object owns (its jump table, its name, its storage) are not followed."
  },
  {
   "property": "C123",
   "status": "proved",
   "theorems": [
    "C123_listed",
    "C123_taken_away",
    "C123_not_twice",
    "C123_from_text"
   ],
   "note": "Composes EngineModel, ProcModel and MapsModel: the memory one run leaves is the memory the next one reads. Assumed as hypotheses: the kernel shows the region as a mapping of its own that begins at the region (a neighbour with the same protection, merged in front of it, would hide it), no two mapped files have the same build id and, for refusing and taking away, no two patches for it the same id."
  },
  {
   "property": "C124",
   "status": "partial",
   "theorems": [
    "C124_asks",
    "C124_usage",
    "C124_effect",
    "C124_done",
    "C124_closed",
    "C124_created",
    "C124_undo_refuted",
    "C124_readonly_refuted",
    "C124_left_refuted"
   ],
   "note": "Proved for two different files: what is asked for is done, nothing else is opened or changed, descriptors are closed. False: a failed --strip leaves an empty file where there was none (C124_left_refuted); the form of --undo-link in the usage text is refused (C124_undo_refuted); the original must be writable although it is only read (C124_readonly_refuted). libelf's own failures while it writes are not modelled."
  },
  {
   "property": "C125",
   "status": "proved",
   "theorems": [
    "C125_files",
    "C125_build_id",
    "C125_symbol"
   ],
   "note": "For files loaded as their headers say (loaded, regular, apart in MapObjSpec.v) with the dynamic tables described by dyn_table; the objects are those of C75 and C110. Unusual layouts are C36's refuted theorems."
  },
  {
   "property": "C126",
   "status": "partial",
   "theorems": [
    "C126_refused",
    "C126_unrelated_mapping_refuted"
   ],
   "note": "False: one accessible mapping of any ELF file that is not the pages of a segment (for instance after mprotect) makes the whole process unpatchable (C126_unrelated_mapping_refuted); C126_refused says it in general."
  },
  {
   "property": "C127",
   "status": "proved",
   "theorems": [
    "C127_in_turn",
    "C127_frame",
    "C127_cancel",
    "C127_cancel_all"
   ],
   "note": "For patches that do not overlap (apart, ManySpec.v); the remote operations of the later runs that cancel succeed, those of the run that patches are arbitrary. All-or-nothing over several files is C04, false."
  },
  {
   "property": "C128",
   "status": "proved",
   "theorems": [
    "C128_program",
    "C128_refines",
    "C128_insert",
    "C128_search_cost"
   ],
   "note": "On the heap: every load and store of the code, with the colour in the low bit of the parent pointer; a load from an address without a node is a fault. RbModel's zipper is what it refines (C128_refines). The nodes are at addresses that are not 0 and divisible by 4."
  },
  {
   "property": "C129",
   "status": "partial",
   "theorems": [
    "C129_sources_partial",
    "C129_compiler_partial",
    "C129_twice_refuted",
    "C129_added_refuted",
    "C129_name_refuted",
    "C129_failure_refuted",
    "C129_compiler_refuted",
    "C129_signal_refuted"
   ],
   "note": "Proved (C129_sources_partial, C129_compiler_partial) when no backups were there before, the patches change existing files with ordinary names, each changed by one patch, and the build does not write to the sources; for the compiler only after status 0 and if its name is a link. The full claim is false: C129_twice_refuted (two patches of a file: i is never incremented), C129_added_refuted, C129_name_refuted, C129_failure_refuted (cc stays libcare-cc after exit 1), C129_compiler_refuted (cc a regular file is deleted), C129_signal_refuted."
  },
  {
   "property": "C130",
   "status": "partial",
   "theorems": [
    "C130_made",
    "C130_undo_refuted",
    "C130_given_refuted",
    "C130_status",
    "C130_silent_refuted"
   ],
   "note": "C130_made is the claim without --buildid, for distinct build ids, on the loop of build_kpatches. False parts: C130_undo_refuted (a failing --undo-link is ignored), C130_given_refuted (with --buildid the patches overwrite each other), C130_silent_refuted and C130_status (failures of make and patch are ignored)."
  },
  {
   "property": "C131",
   "status": "partial",
   "theorems": [
    "C131_fresh",
    "C131_killed",
    "C131_again_refuted"
   ],
   "note": "For a program of one source file under make's rule and one patch: C131_fresh (with --clean, or nothing built before) and C131_killed (backup left by a killed run). Without --clean a second run is false: C131_again_refuted. Times of files are those of a clock that advances with every program run."
  },
  {
   "property": "C132",
   "status": "partial",
   "theorems": [
    "C132_units",
    "C132_riscv_ascii_refuted",
    "C132_global_lost_refuted",
    "C132_arm_cold_refuted"
   ],
   "note": "C132_units for four machines, except whether a variable that another variable follows is global, which is false both ways (C132_global_lost_refuted, C46_static_variable_global_refuted). Also false: .ascii on RISC-V (C132_riscv_ascii_refuted), unlikely parts on ARM (C132_arm_cold_refuted); these are left out of what C132_units takes a compiler to write. Names have no delimiter or quote; .weak and .hidden lines are not among the lines."
  },
  {
   "property": "C133",
   "status": "partial",
   "theorems": [
    "C133_answer",
    "C133_done",
    "C133_red_zone_refuted",
    "C133_hwcap_refuted",
    "C133_early_stop_refuted"
   ],
   "note": "C133_answer (whenever it reports success and the code was run) and C133_done (nothing fails: it succeeds and memory is the same but for the stack below the stack pointer). False: the red zone of x86 is overwritten (C133_red_zone_refuted), the resolver is not given the hardware capabilities on AArch64, RISC-V, LoongArch (C133_hwcap_refuted), a SIGSTOP before the code ran counts as success (C133_early_stop_refuted). Of the processor, only the instructions injected are modelled."
  },
  {
   "property": "C134",
   "status": "partial",
   "theorems": [
    "C134_base",
    "C134_base_done",
    "C134_not_restored_refuted",
    "C134_base_early_stop_refuted",
    "C134_start",
    "C134_start_done",
    "C134_code",
    "C134_arm_start_junk",
    "C134_arm_start_refuted",
    "C134_riscv_start_junk",
    "C134_riscv_start_refuted",
    "C134_loong_start_refuted",
    "C134_loong_start_elsewhere"
   ],
   "note": "C134_base, C134_base_done, C134_start and C134_start_done on x86, the latter for a makecontext that puts __start_context where glibc does. False: a failing restoring write is not reported, an early SIGSTOP gives the old word, AArch64 makes a system call instead of the call, LoongArch stores at a sixteenth of the stack pointer and jumps to t0 (the _refuted theorems). RISC-V's makecontext does not put __start_context where it is looked for. On x86 the 46 bytes injected are decoded (C134_code)."
  },
  {
   "property": "C135",
   "status": "partial",
   "theorems": [
    "C135_heap",
    "C135_libc",
    "C135_tcmalloc",
    "C135_program",
    "C135_libc_refuted",
    "C135_other_libc_refuted",
    "C135_program_refuted"
   ],
   "note": "Exactly which names each expression takes, and that the first of them is the answer: C135_heap, C135_libc, C135_tcmalloc, C135_program (names without special characters). False: libc.so.6 is not found on x86 and AArch64 (C135_libc_refuted), another library is taken for libc (C135_other_libc_refuted), any object containing the program's name for the program (C135_program_refuted). Basic regular expressions are modelled without brackets, groups and bounds."
  },
  {
   "property": "C136",
   "status": "partial",
   "theorems": [
    "C136_reads",
    "C136_shortened",
    "C136_no_such_option",
    "C136_joined",
    "C136_end_of_options",
    "C136_filter",
    "C136_patch",
    "C136_frame",
    "C136_success",
    "C136_refuses",
    "C136_operand",
    "C136_full_disk_refuted",
    "C136_refusal_keeps_output_refuted",
    "C136_output_word",
    "C136_output_word_refuted",
    "C136_unknown_os",
    "C136_unknown_os_refuted"
   ],
   "note": "C136_reads, C136_shortened, C136_no_such_option, C136_joined, C136_end_of_options, C136_filter, C136_patch, C136_success, C136_refuses, C136_operand and C136_frame for all command lines, given room on the disk. False: a full disk is not noticed (C136_full_disk_refuted), a refused run has emptied the output (C136_refusal_keeps_output_refuted), --output is spelled --ouput (C136_output_word_refuted), unknown systems and machines are accepted (C136_unknown_os_refuted). Standard input and output as files are not modelled."
  },
  {
   "property": "C137",
   "status": "partial",
   "theorems": [
    "C137_patched_stage",
    "C137_compile",
    "C137_defaults",
    "C137_killed_refuted"
   ],
   "note": "C137_patched_stage and C137_compile for all files and options, with the options of C137_defaults or any others the environment gives, if no program is ended by a signal and there is room on the disk. Without the first condition false: C137_killed_refuted. Other programs may do anything to files in their steps."
  },
  {
   "property": "C138",
   "status": "partial",
   "theorems": [
    "C138_unpatch",
    "C138_started",
    "C138_running_partial",
    "C138_running_mapped_over_refuted",
    "C138_lost",
    "C138_running_exec_refuted",
    "C138_running_number_refuted",
    "C138_unpatch_shared_refuted",
    "C138_info"
   ],
   "note": "C138_unpatch, C138_started and C138_info for every interleaving without shared images. A running process that is patched: only if it does nothing between the reading of its map and the attaching (C138_running_partial); otherwise false, and the patch is mapped over what it has mapped meanwhile (C138_running_mapped_over_refuted), into the program it has executed meanwhile (C138_running_exec_refuted) or into another process (C138_running_number_refuted). With shared images false also for unpatch (C138_unpatch_shared_refuted). The map is read at one moment; being killed while stopped is not modelled."
  },
  {
   "property": "C139",
   "status": "partial",
   "theorems": [
    "C139_in_order",
    "C139_total",
    "C139_backslash_refuted",
    "C139_blank_refuted",
    "C139_made",
    "C139_failed_step",
    "C139_rpmbuild_failure_refuted",
    "C139_one_id_refuted",
    "C139_no_id_refuted"
   ],
   "note": "C139_in_order and C139_total for all lists without backslashes and without blanks in names; C139_made and C139_failed_step for every build. The full statement is false: a comment ending in a backslash swallows the next patch (C139_backslash_refuted), a name with a blank ends the build (C139_blank_refuted), a failed rpmbuild is not noticed (C139_rpmbuild_failure_refuted), with KP_PROJECT_BUILD_ID all programs but one lose their patch (C139_one_id_refuted), and a program without build id is passed over in silence (C139_no_id_refuted). Wildcards in names are not modelled; patch, rpmbuild, the installing and kpatch_make are functions."
  },
  {
   "property": "C140",
   "status": "proved",
   "theorems": [
    "C140_made",
    "C140_unpacked",
    "C140_shipped"
   ],
   "note": "For a store that was empty; unpacking a third time over a store, where ln fails, is not modelled. That the output of kpatch_make is well formed is a premise of C140_shipped; C140_made discharges it for patches made by successful runs of kpatch_make on relocatable objects, build ids of 40 characters."
  },
  {
   "property": "C141",
   "status": "partial",
   "theorems": [
    "C141_errno",
    "C141_shown_partial",
    "C141_reported_errno_refuted",
    "C141_kperr_text",
    "C141_kperr_names_failure_refuted",
    "C141_start",
    "C141_level",
    "C141_announced",
    "C141_stays_verbose_refuted"
   ],
   "note": "C141_errno without condition; what is written when output leaves errno alone (C141_shown_partial). False: the number reported is the one writing has left (C141_reported_errno_refuted); kperr's arguments are evaluated after errno was set to 0, so strerror(errno) in them names no failure (C141_kperr_text, C141_kperr_names_failure_refuted); info without -v silences a server for good (C141_level, C141_stays_verbose_refuted). That log_indent stays below eight is a premise."
  },
  {
   "property": "C142",
   "status": "partial",
   "theorems": [
    "C142_installed",
    "C142_no_slashes",
    "C142_named",
    "C142_complete_partial",
    "C142_unlisted_fails",
    "C142_passes",
    "C142_left_over",
    "C142_complete_refuted",
    "C142_tab_refuted"
   ],
   "note": "C142_installed, C142_named, C142_unlisted_fails, C142_passes without condition beyond words without blanks; that a patched program is installed needs that no longer path listed ends in its path (C142_complete_partial). False without: C142_complete_refuted (another program of that name below a directory is listed; the check looks for a substring). A tab after a name makes the build fail although the program is listed (C142_tab_refuted)."
  },
  {
   "property": "C143",
   "status": "partial",
   "theorems": [
    "C143_same",
    "C143_no_debug",
    "C143_counted",
    "C143_moved",
    "C143_strict",
    "C143_strict_stops",
    "C143_not_strict",
    "C143_all_symbols_refuted",
    "C143_stripped_refuted"
   ],
   "note": "For the symbols that are compared (C143_same, C143_no_debug, C143_counted), sections may move (C143_moved). False of all symbols: names with two underscores in front and names ending in a dot and a number are left out (C143_all_symbols_refuted); with no symbols at all everything passes (C143_stripped_refuted). A list of allowed differences is not looked into; exactly one debug file of a program is found."
  },
  {
   "property": "C144",
   "status": "partial",
   "theorems": [
    "C144_transparent",
    "C144_announced",
    "C144_server",
    "C144_never_unannounced",
    "C144_gives_up",
    "C144_failed",
    "C144_by_name_refuted",
    "C144_no_server_refuted",
    "C144_untraced_refuted",
    "C144_arguments_refuted",
    "C144_missing_refuted"
   ],
   "note": "proved: what each call does for programs the pattern does not match (C144_transparent) and for those it matches when the server answers and traces (C144_announced), that the server reads the message as meant (C144_server), that the process is killed when it cannot be announced (C144_gives_up), that nothing matched runs unannounced and program and arguments never change (C144_never_unannounced), where errors come from (C144_failed); refuted: programs found through PATH are announced, a program starts although there is no server or it does not attach, 1024 arguments, a relative path that does not exist"
  },
  {
   "property": "C145",
   "status": "partial",
   "theorems": [
    "C145_environ",
    "C145_first_partial",
    "C145_others",
    "C145_last",
    "C145_root",
    "C145_alone_refuted",
    "C145_between_refuted",
    "C145_last_refuted",
    "C145_other_library_refuted"
   ],
   "note": "proved: the exact environment for lists with this library anywhere but last or first in the root directory (C145_environ), that the first place works (C145_first_partial), that nothing else changes (C145_others), that the last place and the root directory are undefined behaviour (C145_last, C145_root); refuted: it is taken out when it is alone, others stay when it is between them, other libraries with a similar name stay"
  },
  {
   "property": "C146",
   "status": "partial",
   "theorems": [
    "C146_reads",
    "C146_steps",
    "C146_refused",
    "C146_id",
    "C146_id_refuted",
    "C146_unknown_evaluated",
    "C146_unknown_name_evaluated",
    "C146_missing_evaluated",
    "C146_help_refuted",
    "C146_refused_refuted",
    "C146_environment_refuted",
    "C146_build_id_refuted"
   ],
   "note": "Proved: C146_reads (all ways of writing, values arrive unchanged through getopt and eval), C146_steps (order of the steps), C146_refused (no id or more than seven characters), C146_id (an accepted id is told apart from every other, single bytes). False: a wrong command line is not refused, the usage text is evaluated as commands (C146_unknown_evaluated, C146_unknown_name_evaluated, C146_missing_evaluated, C146_help_refuted); a refused run moves backups (C146_refused_refuted); in UTF-8 an accepted id can be cut (C146_id_refuted); variables of the environment count as options (C146_environment_refuted); a build id with a blank is dropped silently (C146_build_id_refuted)."
  },
  {
   "property": "C147",
   "status": "partial",
   "theorems": [
    "C147_given_back_partial",
    "C147_linked_partial",
    "C147_backslash_refuted",
    "C147_two_lines_refuted",
    "C147_other_shell_refuted",
    "C147_looks_alike_refuted",
    "C147_last_line_refuted",
    "C147_killed_refuted"
   ],
   "note": "Proved for files that end with a line end: given back if no line with the flags has a backslash (C147_given_back_partial), flag present during the build with bash and one such line (C147_linked_partial). False otherwise: the C147_..._refuted theorems."
  },
  {
   "property": "C148",
   "status": "partial",
   "theorems": [
    "C148_inputs",
    "C148_stops",
    "C148_missing_refuted",
    "C148_relative_refuted",
    "C148_star_refuted",
    "C148_twice_refuted"
   ],
   "note": "Proved for entries with different names: exactly what each stands for is there (C148_inputs), and the work stops exactly if a local file cannot be read or a required download is missing (C148_stops). False: a required local file may be missing (C148_missing_refuted), a relative path with a slash is not meant from the description's directory (C148_relative_refuted), the star stays in a name without slash (C148_star_refuted), two entries of one name (C148_twice_refuted)."
  },
  {
   "property": "C149",
   "status": "partial",
   "theorems": [
    "C149_from_source",
    "C149_from_archive",
    "C149_only_test",
    "C149_succeeds",
    "C149_inputs_kept",
    "C149_tested",
    "C149_changes_refuted",
    "C149_no_patch_refuted",
    "C149_old_patch_refuted",
    "C149_local_archive_refuted",
    "C149_put_elsewhere_refuted",
    "C149_starred_refuted",
    "C149_run",
    "C149_results"
   ],
   "note": "Proved for patches and archives in a bucket: which scripts run, from the description of the package on and depending on what the bucket has (C149_run), what is in the directory of results (C149_results), which scripts run, on what, and what is uploaded (C149_from_source, C149_from_archive, C149_only_test), that it succeeds if the scripts do (C149_succeeds), inputs kept (C149_inputs_kept), the uploaded patch is the tested one (C149_tested). False: changes of files are not picked up, a build without a patch succeeds, an old patch is uploaded in place of the one built, a local archive is not found, a local patch is put elsewhere than it is looked for, a starred archive cannot be uploaded (C149_..._refuted)."
  },
  {
   "property": "C150",
   "status": "partial",
   "theorems": [
    "C150_runs",
    "C150_no_info",
    "C150_refused",
    "C150_help",
    "C150_elsewhere_refuted",
    "C150_blank_refuted",
    "C150_empty_word_refuted",
    "C150_no_directory_refuted",
    "C150_removed_first_refuted"
   ],
   "note": "Proved for names the shell does not cut: C150_runs (the action, the files read and removed, the steps and the status), C150_no_info, C150_refused, C150_help. False: a directory that cannot be entered is taken for the top one, a blank in the name makes the script run and remove another file, options behind an empty word are passed over, without DIR it works on the top directory, a build without the archive fails only after the trees were removed (C150_..._refuted)."
  },
  {
   "property": "C151",
   "status": "partial",
   "theorems": [
    "C151_restored",
    "C151_packed",
    "C151_originals",
    "C151_moved_refuted",
    "C151_inside_refuted",
    "C151_similar_refuted",
    "C151_no_source_refuted"
   ],
   "note": "Proved: C151_restored (the trees come back as the first stage left them, nothing else changes, if the archive lies outside the trees and DIR stays where it was), C151_packed (when the first stage succeeds), C151_originals (which packages are installed). False: if DIR was moved the trees go to the old place and the stage goes on (C151_moved_refuted), if DIR lies in the build root the archive and DIR are removed (C151_inside_refuted), a package with a similar name is not installed (C151_similar_refuted), and none without KP_PROJECT_SOURCE (C151_no_source_refuted)."
  },
  {
   "property": "C152",
   "status": "partial",
   "theorems": [
    "C152_goes_on",
    "C152_wrapped",
    "C152_others",
    "C152_elsewhere_refuted",
    "C152_new_cc_refuted"
   ],
   "note": "Proved: C152_goes_on (when the script goes on), C152_wrapped (cc, and what of gcc, g++ and c++ is in /usr/bin), C152_others. False: a compiler found elsewhere than in /usr/bin is not replaced (C152_elsewhere_refuted), and cc is there afterwards where there was none (C152_new_cc_refuted)."
  },
  {
   "property": "C153",
   "status": "partial",
   "theorems": [
    "C153_originals",
    "C153_missing",
    "C153_round_trip",
    "C153_ignored_refuted",
    "C153_left_over"
   ],
   "note": "Proved: C153_originals, C153_missing (when it fails), C153_left_over (a word left over fails), C153_round_trip. False: a program listed with IGNORE stays the one of the build (C153_ignored_refuted). The only package that uses it names /root/root.original and not DIR/root.original."
  },
  {
   "property": "C154",
   "status": "proved",
   "theorems": [
    "C154_replace",
    "C154_shape",
    "C154_postorder",
    "C154_inorder_refuted"
   ],
   "note": "Proved: C154_replace, C154_shape, C154_postorder. Beside it: a walk in the order of the keys that frees its nodes reads freed memory even with the next node found first (C154_inorder_refuted), which the property does not promise."
  },
  {
   "property": "C155",
   "status": "partial",
   "theorems": [
    "C155_replace",
    "C155_replace_head",
    "C155_splice",
    "C155_cut",
    "C155_cut_splice",
    "C155_source_refuted",
    "C155_cut_head_refuted"
   ],
   "note": "Proved: C155_replace, C155_replace_head, C155_splice, C155_cut, C155_cut_splice. False: that every head can be used afterwards. The head of a list put into another is not empty and a loop over it never ends (C155_source_refuted); cutting at the head itself leaves the new head broken (C155_cut_head_refuted)."
  },
  {
   "property": "C156",
   "status": "partial",
   "theorems": [
    "C156_middle",
    "C156_prepared",
    "C156_safe",
    "C156_safe_reverse",
    "C156_first",
    "C156_next_freed_refuted"
   ],
   "note": "Proved: C156_middle, C156_prepared, C156_safe, C156_safe_reverse, C156_first, for bodies that free the entry they are at. False for a body that frees the entry to come (C156_next_freed_refuted)."
  },
  {
   "property": "C157",
   "status": "partial",
   "theorems": [
    "C157_factor",
    "C157_negative_refuted",
    "C157_sleep",
    "C157_sleep_default",
    "C157_nanosleep",
    "C157_nanosleep_default",
    "C157_bounds",
    "C157_carry_refuted",
    "C157_einval_refuted",
    "C157_range_refuted",
    "C157_wrap_refuted"
   ],
   "note": "Exact for sleep whenever the product fits, so always with the factor of the tests, and for nanosleep whenever the factor divides a second and the request can be counted in nanoseconds; for other factors never more and at most a second less. Refuted: with nine tenths a second is lost in the carry (C157_carry_refuted); invalid requests are slept (C157_einval_refuted); negative SLEEP_MULT is taken (C157_negative_refuted); overflow (C157_range_refuted, C157_wrap_refuted)."
  },
  {
   "property": "C158",
   "status": "partial",
   "theorems": [
    "C158_patched",
    "C158_kinds",
    "C158_more_kinds",
    "C158_silent_refuted",
    "C158_unpatch",
    "C158_skipped",
    "C158_skipped_all",
    "C158_patchlevel",
    "C158_counts",
    "C158_exit",
    "C158_not_run",
    "C158_options",
    "C158_early",
    "C158_nothing_run_refuted",
    "C158_wait"
   ],
   "note": "Every check, the list of tests left out, the counts and the status are proved for all outputs and lists of tests. Refuted: the script also ends with 0 having run nothing, for the flavors of the start on some machines (C158_nothing_run_refuted, exactly those: C158_early, C158_not_run); the test called simplest is passed by a program that prints nothing (C158_silent_refuted)."
  },
  {
   "property": "C159",
   "status": "partial",
   "theorems": [
    "C159_ok",
    "C159_key",
    "C159_same",
    "C159_exit",
    "C159_old",
    "C159_no_output_refuted",
    "C159_other_lines_refuted"
   ],
   "note": "Proved: a case that passes with an output has its key lines unchanged (C159_ok), one given back unchanged passes (C159_same), the counts and the status (C159_exit, C159_old). Refuted: with no output at all every case passes (C159_no_output_refuted); other lines may be lost (C159_other_lines_refuted)."
  },
  {
   "property": "C160",
   "status": "partial",
   "theorems": [
    "C160_read",
    "C160_statements",
    "C160_numbers",
    "C160_room",
    "C160_thousand_refuted"
   ],
   "note": "Proved: C160_read, C160_statements, C160_numbers for every file; C160_room: no error if no line has more than 1000 statements and the first four fewer than 128 together. Refuted: 255 statements in line 1 are an error (C160_thousand_refuted). The sizes in bytes are taken to fit an int."
  },
  {
   "property": "C161",
   "status": "proved",
   "theorems": [
    "C161_no_bad_free",
    "C161_all_freed",
    "C161_read",
    "C161_order_matters"
   ],
   "note": "For every sequence of directives in both files. That files are closed after both were read is needed (C161_order_matters: the tree keeps freed descriptions). A file has at least one line and malloc succeeds."
  },
  {
   "property": "C162",
   "status": "partial",
   "theorems": [
    "C162_streams_partial",
    "C162_stdin_twice_refuted",
    "C162_stdin_twice",
    "C162_stdout_twice_refuted",
    "C162_last_output",
    "C162_inputs"
   ],
   "note": "Proved if - is given at most once for an input and at most once for the output (C162_streams_partial). Refuted: two inputs - (C162_stdin_twice_refuted, in general C162_stdin_twice) and two outputs - (C162_stdout_twice_refuted) use a closed stream."
  }
 ]
}