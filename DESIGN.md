# A machine-checked model of libcareplus

The code under study is `/repo/src` (C).  Everything here is Coq 8.16.1, standard
library only.  Nothing of the project is built or run; the model was written by
reading the source, and every definition cites the file and lines it renders.

## Conventions

* Machine words are `Z` with an explicit `mod 2^64` (`u64`) or `mod 2^32` (`u32`)
  wherever C arithmetic can wrap; bytes are `Z` in `[0,256)`.
* The patient's memory is `Z -> option Z`: address to byte, `None` = unmapped.
  Equality of memories is always stated pointwise.
* Calls into the kernel, libunwind, the file system or the scheduler are *oracles*:
  every theorem quantifies over all of their answers (success, failure, short
  transfer, death of the tool).  What is assumed about an answer is written in the
  definition of the corresponding effect, never as an axiom.
* Undefined behaviour (a write outside a buffer, a null pointer, an uninitialised
  value that is used) is an outcome of its own (`Crash`, or an oracle for the
  uninitialised value), never silently a value.
* Loops whose end is not obvious take fuel with an error value of its own (`Fuel`);
  where it matters there is a theorem that the fuel given suffices.
* `XModel.v` holds definitions only (renderings of C code), `XSpec.v` holds the
  vocabulary in which properties are stated (instruction decoders, what it means
  that a region is free, ...) and does not mention the model's helpers,
  the other files hold lemmas, `XProperties.v` the theorems with
  `Print Assumptions`, plus `Example`s that hypotheses are satisfiable.
* A property that is false of the code gets `..._refuted` (a concrete execution of
  the model violating it) and, where a useful restriction holds, a theorem with the
  restriction as hypothesis, named `..._partial` when it is not the claim itself.
* `seeded/LOG.jsonl` records wrong programs tried against the theorems: the edit of
  the model, the claim it breaks, which theorems failed, and what was tightened when
  none did.

## Per property

Status as in MANIFEST.json: *proved*; *partial*: proved in part, or false of the code with a counterexample (`..._refuted`) and proved under a stated restriction.

| id | property | modelled | how proved | outcome |
|----|----------|----------|------------|---------|
| C01 | Patch then unpatch restores every code byte | EngineModel, RemoteModel, JumpModel: applying and cancelling a patch byte by byte, every remote operation answered by an oracle (done, failed after k bytes, tool died) | invariants over the steps of a run; read-back of the written tables; disjointness of the layout | partial. Proved for an unpatch whose own reads and writes succeed, after any successful patching and any later change of the patient outside the bookkeeping areas. False when the read-back of the table fails (C01_unpatch_success_refuted: success reported, nothing restored). |
| C02 | Patching touches only the patch region and the patched entry points | EngineModel, RemoteModel, JumpModel: applying and cancelling a patch byte by byte, every remote operation answered by an oracle (done, failed after k bytes, tool died) | invariants over the steps of a run; read-back of the written tables; disjointness of the layout | proved. All oracles and outcomes, with and without the roll-back (with it: nothing mapped in the first region-size bytes of the address space, see C55). |
| C03 | A failed patch of an object is rolled back | EngineModel, RemoteModel, JumpModel: applying and cancelling a patch byte by byte, every remote operation answered by an oracle (done, failed after k bytes, tool died) | invariants over the steps of a run; read-back of the written tables; disjointness of the layout | proved. No byte outside the region differs; the region itself is gone too when the tool knew its address. |
| C04 | Patching several objects is all or nothing | EngineModel, RemoteModel, JumpModel: applying and cancelling a patch byte by byte, every remote operation answered by an oracle (done, failed after k bytes, tool died) | invariants over the steps of a run; read-back of the written tables; disjointness of the layout | partial. False: C04_all_or_nothing_refuted. C04_only_one_partial: it holds of a process of which only one object has a patch, if the operations of the roll-back succeed. For several objects what holds instead is C127. |
| C05 | Unpatch is safe after the tool died in the middle of patching | EngineModel, RemoteModel, JumpModel: applying and cancelling a patch byte by byte, every remote operation answered by an oracle (done, failed after k bytes, tool died) | invariants over the steps of a run; read-back of the written tables; disjointness of the layout | proved. Death at any remote operation, including the roll-back's. |
| C06 | The same patch id is never applied twice to one object | EngineModel, RemoteModel, JumpModel: applying and cancelling a patch byte by byte, every remote operation answered by an oracle (done, failed after k bytes, tool died) | invariants over the steps of a run; read-back of the written tables; disjointness of the layout | proved.  |
| C07 | Areas inside the mapped patch region never overlap | EngineModel, RemoteModel, JumpModel: applying and cancelling a patch byte by byte, every remote operation answered by an oracle (done, failed after k bytes, tool died) | invariants over the steps of a run; read-back of the written tables; disjointness of the layout | proved.  |
| C08 | x86-64: the jump written at a patched function lands on the replacement | JumpModel: the bytes written at a function's entry | decoders of the instruction sets (JumpSpec) as specification; bit arithmetic | proved. iff: the written jump reaches the replacement exactly when the displacement fits 32 signed bits. |
| C09 | AArch64: the branch written at a patched function lands on the replacement | JumpModel: the bytes written at a function's entry | decoders of the instruction sets (JumpSpec) as specification; bit arithmetic | proved. iff: reached exactly when the distance is word aligned and within +-128 MiB. |
| C10 | RISC-V: the two instructions written at a patched function land on the replacement | JumpModel: the bytes written at a function's entry | decoders of the instruction sets (JumpSpec) as specification; bit arithmetic | partial. Exact condition proved; the code is wrong for the top 2 KiB of the +2 GiB range (C10_riscv_jump_refuted). |
| C11 | LoongArch: the branch written at a patched function lands on the replacement or patching fails | JumpModel: the bytes written at a function's entry | decoders of the instruction sets (JumpSpec) as specification; bit arithmetic | partial. Reaches or refuses proved; one encodable distance (imm26 = 2^25-1) is refused (C11_loongarch_encodable_distance_refused_refuted). That a refusal leaves the code untouched is proved in the engine (C02/C03). |
| C12 | Free gaps computed from /proc/pid/maps are free and keep guard pages | HoleModel: gaps of the memory map, search and split | induction over maps and over sequences of placements; for C60 an exact characterisation of the walk over pairs of gaps (PlaceProperties) | proved. iff over every address; order and distance of the gaps separately. |
| C13 | The address chosen for a patch is free and within jump reach | HoleModel: gaps of the memory map, search and split | induction over maps and over sequences of placements; for C60 an exact characterisation of the walk over pairs of gaps (PlaceProperties) | partial. Proved when no gap below the object ends in the last [size] bytes of the reach (edge_clear), with the jumps of x86-64, AArch64 and RISC-V shown to reach. False otherwise (C13_overlap_refuted: the region covers an existing mapping) and for LoongArch (C13_loongarch_reach_refuted: search distance 2 GiB, branch 128 MiB). |
| C14 | When no location exists, patching fails before mapping anything | HoleModel: gaps of the memory map, search and split | induction over maps and over sequences of placements; for C60 an exact characterisation of the walk over pairs of gaps (PlaceProperties) | proved. For the engine with the modelled search: every gap too small implies failure with memory unchanged; what the roll-back does then is C03/C55. |
| C15 | Successive patches of one process never overlap | HoleModel: gaps of the memory map, search and split | induction over maps and over sequences of placements; for C60 an exact characterisation of the walk over pairs of gaps (PlaceProperties) | partial. Proved for any sequence of placements under edge_clear for each; false without it (C15_overlap_refuted). |
| C16 | No thread or coroutine executes or returns into code being replaced | SafetyModel: unwinding of threads and coroutines; the check inside the engine | induction over frames and threads | proved. iff: safe exactly when all could be looked at and no visible frame is in replaced code; hypotheses: functions not at address 0 and not wrapping, fewer than 2^32 threads. |
| C17 | An unreadable stack is not judged safe | SafetyModel: unwinding of threads and coroutines; the check inside the engine | induction over frames and threads | partial. False: C17_unreadable_stack_judged_safe_refuted (a negative unw_step is only logged). What holds: C17_no_context_not_safe_partial. |
| C18 | Code is rewritten only after a passing safety check of all known threads | SafetyModel: unwinding of threads and coroutines; the check inside the engine | induction over frames and threads | proved. The check itself and, with the check inside the engine, every write outside the region (patching) or anywhere (unpatching). |
| C19 | Running threads to a safe point waits at the return address of the innermost replaced function | SafetyModel: unwinding of threads and coroutines; the check inside the engine | induction over frames and threads | partial. Proved when there is a frame outside; false when the replaced function is outermost (uninitialised or stale address, C19_no_caller_*_refuted). |
| C20 | Temporary breakpoints are always removed | PtraceModel: word-wise writing, breakpoints, remote calls, waiting and attaching, with the kernel as oracle | induction over words, targets and events | partial. Proved for any set of targets that do not overlap and failing writes that change nothing; one-byte breakpoints never overlap. False for the four-byte breakpoints of RISC-V: C20_riscv_overlap_refuted, C20_riscv_partial_write_refuted. |
| C21 | Executing a system call in the patient leaves its code and registers unchanged | PtraceModel: word-wise writing, breakpoints, remote calls, waiting and attaching, with the kernel as oracle | induction over words, targets and events | proved. Scratch code restored whatever failed (if the restoring write succeeds), registers after success. Beyond the claim: registers after a failure are not restored (C21_registers_after_failure_refuted). |
| C22 | The word-wise memory writer equals a plain write | PtraceModel: word-wise writing, breakpoints, remote calls, waiting and attaching, with the kernel as oracle | induction over words, targets and events | proved. Success means exactly the requested bytes; failure leaves old or new bytes inside and nothing changed outside. Word-wise writing can fail where a plain write succeeds (C22_end_of_mapping_refuted). |
| C23 | The cached reader returns the patient's memory | PtraceModel: word-wise writing, breakpoints, remote calls, waiting and attaching, with the kernel as oracle | induction over words, targets and events | partial. Proved for any sequence of reads of readable memory with no failing pread. False: C23_unreadable_reported_read_refuted, C23_stale_after_short_read_refuted. |
| C24 | Remote system call results are classified correctly | PtraceModel: word-wise writing, breakpoints, remote calls, waiting and attaching, with the kernel as oracle | induction over words, targets and events | proved. mmap, mprotect and munmap, every 64-bit result; a kernel result of 0 for mmap also counts as failure. |
| C25 | A completed attach holds every thread | PtraceModel: word-wise writing, breakpoints, remote calls, waiting and attaching, with the kernel as oracle | induction over words, targets and events | partial. Proved when thread ids are not used again during the attach; false otherwise (C25_id_reuse_refuted). |
| C26 | The patch store returns the patch of exactly the requested build id | StorageModel: the store, its cache (RbModel) and description files | refinement to a map; induction over histories of queries | partial. Proved for any sequence of lookups, of queries, and for all objects of a process; false when queries and lookups are mixed (C26_query_then_lookup_refuted). |
| C27 | The store's tree is a sorted balanced map | RbModel: the red-black tree as a zipper | invariant of each repair step; refinement to a sorted list | proved. Any comparison that orders the keys; the comparisons of the code are shown to. C128 proves the same of the pointers. |
| C28 | Only well-formed patch files are accepted | StorageModel: the store, its cache (RbModel) and description files | refinement to a map; induction over histories of queries | partial. Proved: accepted iff magic, declared size and ELF header are good. False: the declared size may be less than the header, the section table outside the file. |
| C29 | x86-64 relocations store the mathematically right value | RelocModel: relocation of a patch on four architectures, on its bytes | operand decoders (RelocSpec); bit arithmetic; induction over sections | partial. Proved: the value of every supported entry, single and for whole sections with disjoint fields, nothing else changed, unknown types and entries starting beyond the section refused. False: fields that end beyond the section are written (C29_field_past_section_end_refuted), TPOFF32/64 are accepted without effect (C29_tpoff_accepted_refuted), GOT references to defined symbols read the symbol instead of its address (C29_got_of_defined_symbol_refuted). |
| C30 | A relocation that does not fit is reported | RelocModel: relocation of a patch on four architectures, on its bytes | operand decoders (RelocSpec); bit arithmetic; induction over sections | partial. Proved: RISC-V 32-bit data, calls and HI20 refuse what is not a signed 32-bit number; LoongArch branches and pcaddi refuse targets out of reach; on x86-64 a value that fits is represented exactly. False in general: x86-64 truncates, RISC-V JAL and calls near the end of the range, LoongArch 32-bit data (the C30_..._refuted theorems); AArch64 see C31. Also what is accepted: C30_riscv_accepts, C30_riscv_jal (the whole reach of a jal, and nothing past it) and C30_loongarch_accepts. |
| C31 | AArch64 relocations encode the right operand | RelocModel: relocation of a patch on four architectures, on its bytes | operand decoders (RelocSpec); bit arithmetic; induction over sections | partial. Proved: per type only the immediate changes and decodes to the required operand, given targets in range; unknown types refused. False: LDST8 and LDST32 scale by 8, out-of-range branches and pages are accepted, a local thread-local relocation skips the rest of its section, the GOT pair is wrong at the end of a page (the C31_..._refuted theorems). |
| C32 | RISC-V relocations encode the right operand | RelocModel: relocation of a patch on four architectures, on its bytes | operand decoders (RelocSpec); bit arithmetic; induction over sections | partial. Proved for sections without HI20-like relocations of undefined objects: only the immediate changes and decodes to the required one; PCREL pairs without addend. False: PCREL pairs with addend, RVC_JUMP, the second reference to an undefined object (the C32_..._refuted theorems). |
| C33 | LoongArch relocations encode the right operand | RelocModel: relocation of a patch on four architectures, on its bytes | operand decoders (RelocSpec); bit arithmetic; induction over sections | partial. Proved: data, LO12, B21, B26 and PCREL20_S2 relocations encode the required operand and change nothing else. For the HI20 types and B16, where the claim is false (the C33_..._refuted theorems), C33_loongarch_section_partial says what is stored (a quarter of the pages, the distance in bytes), and C33_loongarch_pair when pcalau12i + addi.d is right all the same: on the instruction's page or the one before. |
| C34 | Calls to library functions go through a correct jump table | ElfModel: program headers, notes, dynamic symbols, jump table | induction over headers, notes and symbols | partial. Proved for every GLOBAL reference of type FUNC or OBJECT: own slot inside the table, executing it reaches the resolved address on four architectures, the table is never overrun and never too small. False for weak references (C34_weak_function_refuted). |
| C35 | Library symbols resolve to the exporting library's address | ElfModel: program headers, notes, dynamic symbols, jump table | induction over headers, notes and symbols | partial. Proved: lookup in a table laid out as ld.bfd does, first exporter among the libraries whose table could be read, any sorting function. False: a gap between the tables (C35_gap_between_tables_refuted), an unreadable library is passed over (C35_unreadable_library_refuted). |
| C36 | Virtual addresses of an object map to the right process addresses | ElfModel: program headers, notes, dynamic symbols, jump table | induction over headers, notes and symbols | partial. Proved for regular program headers (RELRO at the start of a segment and smaller than it): matching, translation, acceptance. False otherwise: C36_relro_inside_segment_refuted, C36_whole_segment_relro_refuted. |
| C37 | The build id read from a process is the one in its ELF notes | ElfModel: program headers, notes, dynamic symbols, jump table | induction over headers, notes and symbols | partial. Proved for segments up to 128 bytes, preceding notes with sizes that are multiples of 4 and 20-byte identifiers. False otherwise: the C37_..._refuted theorems. |
| C38 | Unpatch cancels exactly the requested patch on the requested objects | ProcModel: objects of a process from its map, patches found, selection for cancelling | induction over the map | partial. Proved from the memory map on: only requested objects carrying the patch, each once, with the data of a patch for their build id; all of them when build ids and patches are distinct; an absent patch is refused; the count; stopping at a failure. False for two mapped files with the same build id (C38_same_build_id_refuted). |
| C39 | Patch files made by the tool are read back unchanged | MakeModel: construction of the patch file | round trip through StorageModel's reader | partial. Proved for build ids of 40 characters and patch ids of at most seven: accepted, ids and content read back, success iff everything was written, cut files refused. False: longer patch ids are cut (C39_long_id_refuted), wrong build id lengths are only logged (C39_buildid_length_refuted). |
| C40 | A command sent to the server is executed with exactly its arguments | ServModel: framing of a command over a stream socket | induction over segmentations of the stream | partial. Proved for at most 32 non-empty arguments in fewer than 4096 bytes, every segmentation and every interruption; nothing is executed early; what is executed was received. False: empty arguments, more than 32, 4096 bytes and more, errors of recv (the C40_..._refuted theorems). |
| C41 | A malformed or oversized request never corrupts the server | ServModel: framing of a command over a stream socket | induction over segmentations of the stream | partial. Proved: no write out of bounds for every stream; nothing uninitialised is used unless recv fails. False: after a failing recv the uninitialised buffer is executed (C41_receive_error_refuted). |
| C42 | Unchanged code is never put into a patch | CmpModel: comparison of blocks; GenModel: pairing of blocks | correspondence of tokens as specification; induction over lines | partial. Proved for blocks: a block and a copy of it, with other comments, debug lines and blank lines, compare equal when no renames are recorded. Proved for whole files: when the two files have the same lines and blocks and the names tell the blocks apart (record tame), the output has no code of a patch and no entry of the table of functions. Refuted in general (C42_split_function_refuted): a function and a part split from it have one human name, the tree has only the first, and the unchanged part is put in the patch. Proved for one function among files that differ elsewhere (C42_unchanged_function): when it was joined with its new version and the words of its code mean the same (labels numbered anew, names of functions and variables that were joined with one another only), it is written as it was. Not covered there: words that are names of a function left out on request under another number, and variables that two old variables were joined with. |
| C43 | Changed code is always detected | CmpModel: comparison of blocks; GenModel: pairing of blocks | correspondence of tokens as specification; induction over lines | partial. Lines: equal exactly when their tokens correspond through the two tables of renames (iff). Blocks: found equal only if the code is the same line by line, up to renames and the listed exceptions, and the comparison always ends. False where the exceptions hide a change: a constant in a line number argument, a string, a descriptor, a rename on one side (the _refuted theorems); and for whole files: a function that reads another of two static variables of one name (C43_shifted_statics_refuted). |
| C44 | Label renaming is a consistent bijection | RenameModel: the table of renames and rewriting of a line | refinement to a map; pieces of a line | partial. Proved: any sequence of additions and removals leaves the table (as a list and as the balanced tree) a map, and conflicts are noticed. False: two names can be renamed to the same name (C44_bijection_refuted). |
| C45 | The tokenizer loses no text | TextModel: tokens, statements, lines | the unique cutting of a line as specification; induction over text | partial. Proved for every line: the tokens are the only cutting of the line, glued with blanks they are the line, the loop ends. False: a blank line has one empty token (C45_every_token_nonempty_refuted); text behind a newline is dropped (C45_newline_loses_text_refuted), but lines read have none. |
| C46 | Splitting a file into blocks covers the file exactly once | ParseModel: sections and blocks of a file | invariant over the lines; an assembler's section stack (SectSpec) as specification | partial. Proved for every file: blocks in order, disjoint, non-empty, distinct names, lines kept, each line in exactly one block or empty or a repeated .weak/.globl line; ends with blocks or an error. False that every line is in a block (C46_every_line_refuted); a static variable before a global one is marked global (C46_static_variable_global_refuted). C46_global_needs_globl: without a .globl directive no block of the file is taken for a global one. |
| C47 | Undoing the link turns every stored address back into section-relative form | StripModel: stripping and undoing the link on decoded objects | pointwise over sections, relocations and symbols | proved. Relocations and symbols for every decoded object: each, put back at the address its section had in the linked patch, is the former; nothing else of a section changes but its address. On RISC-V and LoongArch functions that the original has too are instead given the original's place (C47_original_functions). libelf's decoding and encoding are not modelled. |
| C48 | Copying an object file produces an identical file | CopyModel: the copying loop with all answers of read and write | invariant over the loop | partial. Proved when every write is whole or fails and the old output could be removed, for all short reads, interrupts and failures; it always ends. False after a short write, where the whole length is written again (C48_short_write_refuted, C48_outside_refuted), and when the old file stays (C48_old_file_refuted). |
| C49 | The debug filter removes only debug information | DbgModel: the debug filter | groups of debug lines as specification; induction over lines | partial. Proved: only debug lines and whole groups of debug information (as DbgSpec.group says) are dropped, everything else is emitted unchanged and in order, and the filter ends. False: a code section whose label begins like a debug one, the rest of a line, an empty statement, a label are dropped or changed (the _refuted theorems). |
| C50 | Saved coroutine registers are decoded correctly | CoroModel: saved registers, list and heap scan of coroutines | bit arithmetic; induction over the list | partial. Proved on x86-64: demangling inverts glibc's mangling for all pointers and guards, and libunwind is told the registers of the saved context. False on AArch64 (layout of another machine) and for three registers on RISC-V (demangled although not mangled). C50_only_saved: no other register is answered from the buffer. |
| C51 | Patching all processes visits each eligible process once | CliModel: command line, glibc's getopt as used, process loop | case analysis; induction over words | partial. Proved for listings of plain names and numerals, when no attempt answers -2: each eligible process once, no other; the result. False when an attempt answers -2 (C51_stop_refuted). |
| C52 | A usage error is reported as failure | CliModel: command line, glibc's getopt as used, process loop | case analysis; induction over words | partial. Proved: unknown command and too few arguments fail; an unknown option runs nothing. False: an unknown or missing option gives 0 (C52_unknown_option_refuted, C52_missing_option_refuted), help gives -1 (C52_help_refuted). |
| C53 | The end of the information table is found exactly | EngineModel, RemoteModel, JumpModel: applying and cancelling a patch byte by byte, every remote operation answered by an oracle (done, failed after k bytes, tool died) | invariants over the steps of a run; read-back of the written tables; disjointness of the layout | proved. For readable memory; the reader's behaviour on failing reads is C01_unpatch_success_refuted / C23. |
| C54 | Functions added by a patch never overwrite existing code | EngineModel, RemoteModel, JumpModel: applying and cancelling a patch byte by byte, every remote operation answered by an oracle (done, failed after k bytes, tool died) | invariants over the steps of a run; read-back of the written tables; disjointness of the layout | proved. The frame C02 gives the same for whole runs. |
| C55 | A failed allocation never unmaps the patient's memory | EngineModel, RemoteModel, JumpModel: applying and cancelling a patch byte by byte, every remote operation answered by an oracle (done, failed after k bytes, tool died) | invariants over the steps of a run; read-back of the written tables; disjointness of the layout | partial. False: C55_failed_allocation_refuted (munmap(0, size)). C55_nothing_low_partial: with nothing mapped in [0, size) all that the patient had mapped is as before. |
| C56 | A patch can be cancelled after the tool died | EngineModel, RemoteModel, JumpModel: applying and cancelling a patch byte by byte, every remote operation answered by an oracle (done, failed after k bytes, tool died) | invariants over the steps of a run; read-back of the written tables; disjointness of the layout | partial. False: C56_cancel_after_crash_refuted. C56_when_partial: it can be cancelled exactly if the region is there and already read-only and executable, and then all is restored. |
| C57 | Replaced functions closer than one jump are handled | EngineModel, RemoteModel, JumpModel: applying and cancelling a patch byte by byte, every remote operation answered by an oracle (done, failed after k bytes, tool died) | invariants over the steps of a run; read-back of the written tables; disjointness of the layout | partial. False of the engine: C57_overlapping_entries_refuted. With non-overlapping entries it is C01. |
| C58 | A successful patch is effective | EngineModel, RemoteModel, JumpModel: applying and cancelling a patch byte by byte, every remote operation answered by an oracle (done, failed after k bytes, tool died) | invariants over the steps of a run; read-back of the written tables; disjointness of the layout | proved. For all architectures in terms of the generated bytes; on x86-64 down to the executed instruction. |
| C59 | A failed patch leaves no memory mapped | EngineModel, RemoteModel, JumpModel: applying and cancelling a patch byte by byte, every remote operation answered by an oracle (done, failed after k bytes, tool died) | invariants over the steps of a run; read-back of the written tables; disjointness of the layout | partial. False: C59_region_leak_refuted. C59_known_partial: true when the tool knows the address. |
| C60 | A usable place for the patch is found if there is one | HoleModel: gaps of the memory map, search and split | induction over maps and over sequences of placements; for C60 an exact characterisation of the walk over pairs of gaps (PlaceProperties) | partial. False as stated: C60_place_exists_but_not_found_refuted. C60_found_iff says exactly when the search finds a place (pairs of gaps, one on each side, going outwards); C60_found_partial gives the case in which the gap next to the object has room. |
| C61 | No thread executes any code of a patch that is being taken away | SafetyModel: unwinding of threads and coroutines; the check inside the engine | induction over frames and threads | partial. False for functions that exist only in the patch: C61_new_functions_ignored_refuted, and inside the engine C61_unmapped_while_running_refuted. C61_replacements_partial: no visible frame is in code that replaced a function. |
| C62 | The temporary breakpoint stops the thread | PtraceModel: word-wise writing, breakpoints, remote calls, waiting and attaching, with the kernel as oracle | induction over words, targets and events | partial. True for x86-64 and RISC-V; false for AArch64 (for every instruction) and LoongArch. |
| C63 | After running forward every thread is stopped at an instruction boundary | PtraceModel: word-wise writing, breakpoints, remote calls, waiting and attaching, with the kernel as oracle | induction over words, targets and events | partial. Proved when nothing goes wrong in the wait; false otherwise: C63_still_moving_refuted, C63_pc_after_breakpoint_refuted. |
| C64 | Failure to run threads forward is reported | PtraceModel: word-wise writing, breakpoints, remote calls, waiting and attaching, with the kernel as oracle | induction over words, targets and events | partial. False: C64_failure_reported_as_success_refuted, C64_lost_restore_reported_as_success_refuted. C64_place_partial: if all breakpoints were written, all threads resumed and every event is one expected, each thread with a target is at it afterwards, or where the tool's SIGSTOP met it, or gone; the result does not say which. |
| C65 | Signals arriving while the tool holds a thread are delivered | PtraceModel: word-wise writing, breakpoints, remote calls, waiting and attaching, with the kernel as oracle | induction over words, targets and events | partial. Proved for remote execution and attaching; false for running forward (C65_run_forward_swallows_refuted). |
| C66 | A remote system call is reported as done only if it was done | PtraceModel: word-wise writing, breakpoints, remote calls, waiting and attaching, with the kernel as oracle | induction over words, targets and events | partial. False: C66_not_executed_but_success_refuted. What holds when the code did run: C66_result_is_the_kernels_partial. |
| C67 | A patch once found stays the same for the whole run | StorageModel: the store, its cache (RbModel) and description files | refinement to a map; induction over histories of queries | proved.  |
| C68 | Patching starts only after the before-script has succeeded | StorageModel: the store, its cache (RbModel) and description files | refinement to a map; induction over histories of queries | partial. Proved when the script was run and waited for; false when fork or waitpid fails (C68_script_not_run_goes_on_refuted). |
| C69 | A patch description is read completely and inside its buffer | StorageModel: the store, its cache (RbModel) and description files | refinement to a map; induction over histories of queries | proved. Any chunking of reads; the int counter does not overflow (files below 2 GiB). |
| C70 | A patch is only used for the build id it was made for | StorageModel: the store, its cache (RbModel) and description files | refinement to a map; induction over histories of queries | partial. Proved for a single-file store; false for a directory (C70_directory_other_build_id_refuted). |
| C71 | Every relocation section of a patch is applied or refused | RelocModel: relocation of a patch on four architectures, on its bytes | operand decoders (RelocSpec); bit arithmetic; induction over sections | partial. Proved: exactly the sections with addends, in order. False: sections without addends are passed over instead of refused (C71_rel_section_ignored_refuted). C71_target names the section a relocation section is for and the table its symbols come from; C71_no_symbol_table: without a symbol table every loading fails. |
| C72 | The ELF headers used for an object are the object's | ElfModel: program headers, notes, dynamic symbols, jump table | induction over headers, notes and symbols | partial. Proved for headers read in full, from memory and from the file. False after a failed read (C72_failed_read_forgotten_refuted). |
| C73 | Objects are classified correctly as shared libraries | ElfModel: program headers, notes, dynamic symbols, jump table | induction over headers, notes and symbols | partial. Proved: the exact condition the code tests. False as a classification (C73_other_library_with_interpreter_refuted). |
| C74 | The patch's own symbols refer to where the patch was placed | ElfModel: program headers, notes, dynamic symbols, jump table | induction over headers, notes and symbols | partial. Proved for every symbol defined in the patch. False: an undefined untyped symbol gets address 0 (C74_undefined_untyped_accepted_refuted). |
| C75 | Every mapping of a process belongs to exactly one object | ProcModel: objects of a process from its map, patches found, selection for cancelling | induction over the map | partial. Proved: every mapping in exactly one object, same object iff device and inode agree modulo 2^32. False for inodes that differ by 2^32 (C75_inode_refuted). |
| C76 | Exactly the mappings holding a patch are found as patches | ProcModel: objects of a process from its map, patches found, selection for cancelling | induction over the map | partial. Proved: the patch objects are the mappings with the magic string whose name begins with [anonymous], in order, with their contents. False: a file of that name is taken for a patch (C76_file_taken_for_patch_refuted). |
| C77 | Reading the memory map never writes outside the name buffer | ProcModel: objects of a process from its map, patches found, selection for cancelling | induction over the map | partial. Proved when patches are only in mappings without a path. False for a file in a long path (C77_long_path_refuted). |
| C78 | info lists exactly the patches in the process | ProcModel: objects of a process from its map, patches found, selection for cancelling | induction over the map | partial. Proved: succeeds, lists only what is there, each once, and everything when build ids are distinct. False for a second file with the same build id (C78_same_build_id_refuted). |
| C79 | Remote calls are made in executable memory of the C library | ProcModel: objects of a process from its map, patches found, selection for cancelling | induction over the map | partial. Proved: the first executable mapping whose name begins with libc. False: that can be another library (C79_other_library_refuted). |
| C80 | A well-formed command line runs the operation it names on the process it names | CliModel: command line, glibc's getopt as used, process loop | case analysis; induction over words | partial. Proved for options before operands with at least three words. False in the other forms: the _refuted theorems. |
| C81 | The server reads each command from its own words | CliModel: command line, glibc's getopt as used, process loop | case analysis; induction over words | partial. Proved when no word holds several options. False otherwise: the parser keeps a pointer into the previous message (C81_stale_refuted). |
| C82 | An operation on a process goes through its steps in order and tells the truth about them | DriverModel: order of steps and of what is opened and released | induction over traces | partial. Proved: order of steps, release once and last, result. False: a failing after-script is not reported (C82_after_script_refuted). C82_threads, C82_kickstart and C82_attach: the stages inside attaching, with the error each returns and what they leave traced. |
| C83 | What an operation opens it releases exactly once | DriverModel: order of steps and of what is opened and released | induction over traces | partial. Proved for a process already running that could be opened, and that nothing is then released twice. False: leak when opening fails late, double release for just started processes (the _refuted theorems). |
| C84 | Reading an assembler file keeps its lines and statements | TextModel: tokens, statements, lines | the unique cutting of a line as specification; induction over text | partial. Proved for files with lines shorter than the buffer and without NUL bytes; statements for every line. False: a line of 65535 bytes or more is cut (C84_long_line_cut_refuted), a comment beginning with a word is cut at its semicolons (C84_comment_is_kept_whole_refuted). |
| C85 | Renaming a line replaces exactly the tokens that are to be renamed | RenameModel: the table of renames and rewriting of a line | refinement to a map; pieces of a line | proved. For every line without a newline and every table. |
| C86 | Moves through the global offset table do what the moves did | RenameModel (moves), GotSpec: a small machine for the moves | symbolic execution | partial. Proved: loads into 32-bit and 64-bit registers; stores of a register other than the stack pointer or of a constant, up to the eight bytes below the stack. False: loads into parts of registers, the red zone, a store of the stack pointer, moves without operands (the _refuted theorems). |
| C87 | Every line is filed under the section the assembler puts it into | ParseModel: sections and blocks of a file | invariant over the lines; an assembler's section stack (SectSpec) as specification | partial. Proved for simple files (see SectSpec.simple). False for sections pushed in one another, .previous after .popsection, .previous at the start (the _refuted theorems). Which sections count as executable is proved too (C87_executable, C87_known, C87_standard); false for a .section directive without flags (C87_no_flags_refuted). |
| C88 | The coroutines of a known program are all found, or the operation is refused | CoroModel: saved registers, list and heap scan of coroutines | bit arithmetic; induction over the list | partial. Proved: a successful walk of the list has found exactly its coroutines, for every answer of the kernel; the scan of the heap when no read fails; a known program is refused otherwise. False: a failed read is not noticed by the scan, a cyclic list is followed for ever, other programs are taken to have none (the _refuted theorems). locate_start_context_symbol is C134; libunwind itself is not modelled. |
| C89 | Looking for coroutines leaves the stack of the process alone | CoroModel: saved registers, list and heap scan of coroutines | bit arithmetic; induction over the list | partial. Proved up to the entry of makecontext: nothing at or above the stack pointer changes. False: the bytes below it are written (C89_red_zone_refuted). With a makecontext that keeps to its own stack, nothing outside that stack changes over the whole call (C134_start_done). |
| C90 | Stripping keeps a patch's own sections whole, apart and aligned, and lets no function through that is too short to be replaced | StripModel: stripping and undoing the link on decoded objects | pointwise over sections, relocations and symbols | partial. Contents proved for all; layout when alignments are powers of two and the first offset is aligned (C90_layout_partial). False for a section whose header asks for alignment 0, which is put over the ELF header (C90_unaligned_refuted), and on RISC-V, where the jump takes eight bytes and five are asked for (C90_riscv_refuted). |
| C91 | After undo-link every section that exists in the original has the original's address | StripModel: stripping and undoing the link on decoded objects | pointwise over sections, relocations and symbols | partial. The first half for all pairs of files; the second when the patch has all the sections of the original, in their order (C91_all_partial). False when one is missing: the one after it is left out too (C91_skipped_refuted), or the whole fails (C91_last_refuted). |
| C92 | Fixing up the relocations of a patch leaves each pointing where it pointed | FixupModel: fixing up relocations on decoded objects | pointwise; the value a relocation stores as specification | partial. Proved for all inputs on x86-64 and AArch64 (C92_section), and one relocation at a time on all four (C92_target). A load from the table gives the address if the symbol is in none of the patch's own sections (C92_address); false for those (C92_own_variable_refuted). False: a field at a section's start is looked at outside it (C92_outside_refuted); on RISC-V and LoongArch a versioned symbol that is defined becomes undefined (C92_versioned_refuted). For a whole file with any number of relocation sections: C92_file, C92_file_rel. C92_kinds: by kind of symbol, which relocations are redirected, copied or refused; C92_versioned: on the machines that copy. |
| C93 | A relocation against a thread-local variable is led to the original's slot for that variable | FixupModel: fixing up relocations on decoded objects | pointwise; the value a relocation stores as specification | partial. x86-64: proved for the program's own variables when .rela.dyn has no entries for module numbers and module offsets without symbol (C93_slot_partial), with completeness (C93_found) and local-exec (C93_local_exec). False with a module number's entry before it (C93_module_refuted), for other libraries' variables (C93_others_refuted), with a NULL write when the original has another kind of symbol (C93_null_refuted), on LoongArch (C93_loongarch_refuted), on AArch64 beyond the section's first page (C93_aarch64_refuted). LoongArch local-exec as on x86 (C93_loongarch_local_exec); other kinds of reference are refused (C93_other_kinds); RISC-V accepts local-exec whatever the original has (C93_riscv_local_exec_refuted). C93_riscv_slot and C93_riscv_found give RISC-V both ways; C93_by_name the variables of other libraries on x86-64 and RISC-V. C93_riscv_local_exec: what RISC-V makes of local-exec references. |
| C94 | The generated file is the original plus the replacements | GenModel: analysis of two files and writing of the third | invariant over all passes (GenFrame, GenSteps, GenOther, GenChange, GenNames), the parts of the output as specification (GenOut) | proved. For every run that ends with an output (C94_generated_file); GenOut.v says what each part is. What the assembler makes of the text is not modelled. |
| C95 | No change is lost | GenModel: analysis of two files and writing of the third | invariant over all passes (GenFrame, GenSteps, GenOther, GenChange, GenNames), the parts of the output as specification (GenOut) | partial. Proved for every run that ends with an output (C95_changes_emitted), where code is the same up to names that the two tables let stand for one another. That the tables are right is false for two statics of one name (C43_shifted_statics_refuted) and with the exceptions of the comparison (C43). A variable may also be joined with a block without name. |
| C96 | New code has new names and refers to the program by its own | GenModel: analysis of two files and writing of the third | invariant over all passes (GenFrame, GenSteps, GenOther, GenChange, GenNames), the parts of the output as specification (GenOut) | partial. C96_new_names, for every run with an output. Labels must not be names of other blocks. False for a function that is left out whose name the compiler numbered otherwise: it keeps the name of the new file, which nothing defines (C96_left_out_name_refuted). Nothing is said of the name of a variable that is joined with a function. |
| C97 | The table of functions has the layout the loader reads | GenModel: entries of the table; options and configuration | layout of the struct as specification; induction over the argument | proved. The text of the entry; the assembler is not modelled. |
| C98 | Options and configuration select exactly the symbols they name | GenModel: entries of the table; options and configuration | layout of the struct as specification; induction over the argument | partial. Proved: what the options and the lists select (C98_option, C98_list_partial, C98_config). False: beyond 32 symbols memory is overwritten (C98_option_refuted), a file's name need only begin with the one given (C98_other_file_refuted), a line need only begin with the function's name (C98_config_refuted). |
| C99 | The compiler wrapper steps aside when it should | CcModel: the compiler wrapper, all it asks the system as events answered by an oracle | words of a command line as specification (CcSpec); a Hoare-like rule for runs (plays): steps taken exactly when all answers are fine | partial. Proved for every environment and command line: what is handed over is unchanged, and when. False: a macro given as -D NAME in two words counts as a second file, so that file is compiled without the patch (C99_define_in_two_words_refuted); -Tscript and -emain skip the next word (C99_joined_option_refuted). |
| C100 | Compiling one file through the wrapper | CcModel: the compiler wrapper, all it asks the system as events answered by an oracle | words of a command line as specification (CcSpec); a Hoare-like rule for runs (plays): steps taken exactly when all answers are fine | partial. Proved for command lines of the described form (wd_ok: options the wrapper can tell from files, one input, at most one -x, names shorter than PATH_MAX, the list of removed arguments in order). False without it: default output names of foo.cpp (C100_default_name_refuted), a source without suffix is overwritten (C100_source_overwritten_refuted), assembler from the standard input (C100_assembler_from_stdin_refuted). |
| C101 | The wrapper removes the arguments it was told to remove | CcModel: the compiler wrapper, all it asks the system as events answered by an oracle | words of a command line as specification (CcSpec); a Hoare-like rule for runs (plays): steps taken exactly when all answers are fine | partial. Proved for the default, for sorted lists at addresses where the byte order of the pointers is that of the words, and that nothing else is removed. False in general: C101_listed_argument_stays_refuted. |
| C102 | A step that fails fails the build | CcModel: the compiler wrapper, all it asks the system as events answered by an oracle | words of a command line as specification (CcSpec); a Hoare-like rule for runs (plays): steps taken exactly when all answers are fine | partial. Proved with success as the wrapper sees it (exit status 0). False for a program killed by a signal (C102_killed_tool_refuted). |
| C103 | The two stages of a build meet | CcModel: the compiler wrapper, all it asks the system as events answered by an oracle | words of a command line as specification (CcSpec); a Hoare-like rule for runs (plays): steps taken exactly when all answers are fine | partial. Proved. False for files in the root directory (C103_root_directory_refuted) and for x and x.original (C103_original_overwritten_refuted). |
| C104 | Building from several files through the wrapper | CcModel: the compiler wrapper, all it asks the system as events answered by an oracle | words of a command line as specification (CcSpec); a Hoare-like rule for runs (plays): steps taken exactly when all answers are fine | partial. Proved when no more arguments are appended than words dropped. False beyond: C104_appended_arguments_refuted (read outside an array); .cc is not a source file (C104_cc_suffix_refuted), -x stays (C104_language_kept_refuted), /dev/null (C104_null_input_refuted). |
| C105 | What the server patches, and from where | LoopModel: the server loop with its static variables, its descriptors and the events it causes; addresses of sockets | one relation per connection (exec_does), runs as a relation, induction over the inputs | partial. Proved for every run of the server (descriptors as record started says, message contents by C40). False: storage without an argument sets the empty name (C105_missing_argument_refuted), 5x7 is taken for 5 (C105_trailing_text_refuted), a directory of 4096 bytes or more on the command line is written outside the array (C105_long_directory_refuted). SIGTERM is modelled between connections only. C105_only_on_request: the argument has a digit. |
| C106 | The program the server runs | LoopModel: the server loop with its static variables, its descriptors and the events it causes; addresses of sockets | one relation per connection (exec_does), runs as a relation, induction over the inputs | partial. Proved for one child at a time, none left at the end, what the client is told; for signals if no kill command names a number the server got from fork. False otherwise: after kill the number is kept and signalled again (C106_signals_another_refuted); kill -1 (C106_kill_everything_refuted). |
| C107 | Output and descriptors of the server | LoopModel: the server loop with its static variables, its descriptors and the events it causes; addresses of sockets | one relation per connection (exec_does), runs as a relation, induction over the inputs | partial. Proved if standard output and error are open, 103 descriptors are allowed and one below 101 is free. False: the program started by run has neither standard output nor error (C107_program_output_refuted) but the listening socket (C107_listening_socket_kept_refuted); connections stay open if the server has no standard output or a low limit (C107_no_standard_output_refuted, C107_few_descriptors_refuted). Line buffering of stdout is not modelled. |
| C108 | The server keeps serving | LoopModel: the server loop with its static variables, its descriptors and the events it causes; addresses of sockets | one relation per connection (exec_does), runs as a relation, induction over the inputs | partial. Proved for clients that send a whole message or go away. False: one failed accept ends the server (C108_accept_error_refuted), a silent client blocks it (C108_silent_client_refuted), a failed exec leaves a second server (C108_two_servers_refuted), a listening descriptor 101 is overwritten (C108_descriptor_101_refuted). C108_terminated: SIGTERM ends the server with status 143 after exactly the connections accepted before. |
| C109 | Client and server meet at the same socket | LoopModel: the server loop with its static variables, its descriptors and the events it causes; addresses of sockets | one relation per connection (exec_does), runs as a relation, induction over the inputs | partial. Proved for names that start with / and have at most 106 bytes. False: longer ones in the client (C109_client_name_refuted), abstract and relative names (C109_abstract_name_refuted, C109_relative_name_refuted), no socket (C109_no_socket_refuted). |
| C110 | The memory map is read as the kernel writes it | MapsModel: fgets and sscanf of the lines, from the text of the file | the kernel's line format as a relation (MapsSpec), scanning lemmas per conversion, induction over the lines | partial. Proved for lines of at most 1023 characters, with the inode modulo 2^32 and the name up to its first blank. False otherwise: longer lines are taken for several (C110_long_path_refuted, C110_unset_numbers_refuted), a blank in a directory's name (C110_blank_in_path_refuted), inodes above 2^32 (C110_inode_refuted). |
| C111 | The entry point of a started program is the one the kernel gives | StartModel: what read, readlink, waitpid and ptrace deliver as lists; buffers with unset bytes | relations between what a program does and what is delivered (StartSpec), induction over them | partial. Proved. False for a file that ends in the middle of the pair (C111_half_a_pair_refuted), which the kernel does not produce. |
| C112 | A process goes by the name of its program | StartModel: what read, readlink, waitpid and ptrace deliver as lists; buffers with unset bytes | relations between what a program does and what is delivered (StartSpec), induction over them | partial. The name lacks its last character (C112_last_character_lost, for every program); it is right for names of 16 bytes and more. Virtual machines and the loader are recognised, the latter's program too. False: C112_short_name_refuted, other programs starting with ld, options of the loader, no argument, deleted files, the test programs. |
| C113 | The entry point of a program run by the dynamic loader | StartModel: what read, readlink, waitpid and ptrace deliver as lists; buffers with unset bytes | relations between what a program does and what is delivered (StartSpec), induction over them | partial. Proved for x86 (without signals) and RISC-V. False on aarch64 and LoongArch (wrong registers), with a signal on x86, signals are lost elsewhere; the first mmap need not be of the program (the _refuted theorems). |
| C114 | The execve wrapper is let go on once and followed through its execve | StartModel: what read, readlink, waitpid and ptrace deliver as lists; buffers with unset bytes | relations between what a program does and what is delivered (StartSpec), induction over them | partial. Proved for x86 and RISC-V; what wait_for_stop itself does is C65. False on aarch64 and LoongArch, where the breakpoint is not recognised, and for a word of ones before the program counter. |
| C115 | The command line in the output is complete and on one line | StartModel: what read, readlink, waitpid and ptrace deliver as lists; buffers with unset bytes | relations between what a program does and what is delivered (StartSpec), induction over them | partial. Proved. That two command lines are told apart is false since a backslash is not marked (C115_ambiguous_refuted). |
| C116 | libcare-dump -c gives back the object file a patch was made of | DumpModel: the two functions on files by number, getopt with optional arguments | round trip with MakeModel; case analysis; induction over words | partial. Proved for what follows the header up to 2 GB less a page, and the exact outcome up to 4 GB. False beyond 4 GB, where a part is written and counts as success (C116_four_gigabytes_refuted), if the output is the input (C116_same_file_refuted), and the magic string is not looked at (C116_not_a_patch_refuted). |
| C117 | libcare-dump -H shows the ids a patch was made with | DumpModel: the two functions on files by number, getopt with optional arguments | round trip with MakeModel; case analysis; induction over words | partial. Proved for ids of at most seven characters. False: longer ids are not told apart (C117_long_ids_refuted), other files are shown too (C117_not_a_patch_refuted), and behind an unterminated build id memory is shown (C117_unterminated_refuted, exactly when: C117_determined). |
| C118 | libcare-dump does what its options say | DumpModel: the two functions on files by number, getopt with optional arguments | round trip with MakeModel; case analysis; induction over words | partial. Proved. False for joined options (C118_joined_refuted, C118_joined_show_refuted); without -c and -H it fails without a message (C118_silent_refuted). |
| C119 | The tool gives a process back | DetachModel: the kernel's state of each thread (traced, stopped, dead, gone), detaching, attaching and the wait loop | induction over the contexts with distinct pids; hanging as an outcome of its own | partial. Proved for threads that are stopped, gone or dead as the tool believes, and for attaching followed by giving back (C119_attach_and_give_back). False: a process of several threads killed while it is attached makes the tool hang (C119_killed_hangs for every such process, C119_killed_refuted: the other order would end); so does a thread whose wait was cut short (C119_cut_short_refuted); a thread whose wait failed while attaching stays traced (C119_stays_traced_refuted). waitpid interrupted by a signal is not modelled. |
| C120 | All threads of a process are listed | DetachModel: an array with its size, the names of the directory | induction over the names, names kept as a relation | proved. The kernel's names are numerals below 2^31. A failing realloc frees the old array, which the model does not follow. |
| C121 | Linked lists behave as sequences | ListModel: the functions and loops of list.h on a heap of nodes in which access to freed memory crashes | a heap predicate for several rings that share nothing; each operation refines the operation on sequences, with a frame; induction over programs and entries | partial. Proved for the operations the tools use. False: list_add puts the entry last, not after the head as its comment says, and list_move makes it the last and not the first (C121_comments_refuted). list_replace, list_splice and the loops the tools do not use are C155 and C156. C121_position and C121_rotate: list_is_last, list_is_singular and rotation. |
| C122 | Giving up a process frees everything once | ListModel: the loops of kpatch_process_free and object_destroy on the same heap | induction over the entries with the rings of the entries that are left as invariant | proved. The lists and their entries; the other blocks an object owns (its jump table, its name, its storage) are not followed. |
| C123 | A patch applied by one run is found, listed, refused and taken away by later runs | EngineModel for the run that applies, ProcModel and MapsModel for the later one; the memory between them is the only thing handed over | the round trip of C01 gives what is in the region; induction over the lines of the map shows it is found; then the theorems on listing and selecting | proved. Composes EngineModel, ProcModel and MapsModel: the memory one run leaves is the memory the next one reads. Assumed as hypotheses: the kernel shows the region as a mapping of its own that begins at the region (a neighbour with the same protection, merged in front of it, would hide it), no two mapped files have the same build id and, for refusing and taking away, no two patches for it the same id. |
| C124 | kpatch_strip runs the one action its command line names on the two files named | StripMainModel: the options as getopt_long gives them, opening of the two files, the action, the closing | classification of the words of a command line; case analysis over the outcomes of opening and of the action | partial. Proved for two different files: what is asked for is done, nothing else is opened or changed, descriptors are closed. False: a failed --strip leaves an empty file where there was none (C124_left_refuted); the form of --undo-link in the usage text is refused (C124_undo_refuted); the original must be writable although it is only read (C124_readonly_refuted). libelf's own failures while it writes are not modelled. |
| C125 | Loaded files are found with their bias, kind, build id and symbols from the process alone | MapObjModel: kpatch_process_map_object_files on the text of the memory map and the memory, composing MapsModel, ProcModel and ElfModel | what is in memory is decoded (headers inside or outside the first 1024 bytes); parse_spec, parse_total and the first-exporter theorem for each object; induction over the list of objects; witness by computation on a whole process | proved. For files loaded as their headers say (loaded, regular, apart in MapObjSpec.v) with the dynamic tables described by dyn_table; the objects are those of C75 and C110. Unusual layouts are C36's refuted theorems. |
| C126 | Mappings of files no patch is for do not hinder patching | MapObjModel: kpatch_process_map_object_files on the text of the memory map and the memory, composing MapsModel, ProcModel and ElfModel | what is in memory is decoded (headers inside or outside the first 1024 bytes); parse_spec, parse_total and the first-exporter theorem for each object; induction over the list of objects; witness by computation on a whole process | partial. False: one accessible mapping of any ELF file that is not the pages of a segment (for instance after mprotect) makes the whole process unpatchable (C126_unrelated_mapping_refuted); C126_refused says it in general. |
| C127 | Patches of several files of a process do not disturb each other | EngineModel.apply_patches: the loop of kpatch_apply_patches; cancelling is unpatch_object of each patch, as for C01 | decomposition of the loop into patch_object steps; frames of C02 by induction; what stays executable through the other patches; C01 applied to each patch with the others as what happened in between | proved. For patches that do not overlap (apart, ManySpec.v); the remote operations of the later runs that cancel succeed, those of the run that patches are arbitrary. All-or-nothing over several files is C04, false. |
| C128 | The pointers of the tree are kept right and destroying it frees every entry once | RbHeapModel: rbtree.c and rbtree.h load by load and store by store on a heap of nodes, colour bit in the parent pointer | a heap stores a tree (holds, stored); every loop body against RbModel's step with a frame for all other memory; induction over the path; rb_destroy by a list of pending parents | proved. On the heap: every load and store of the code, with the colour in the low bit of the parent pointer; a load from an address without a node is a fault. RbModel's zipper is what it refines (C128_refines). The nodes are at addresses that are not 0 and divisible by 4. |
| C129 | Making a patch leaves the build machine as it was | LpModel: the script libcare-patch-make on a file system of files with times and links; make, patch and the tools are functions | invariant of the tree while patches are applied (patched), restore_origs as a permutation of moves (restore_backs); induction over the executables; concrete runs for the refuted parts | partial. Proved (C129_sources_partial, C129_compiler_partial) when no backups were there before, the patches change existing files with ordinary names, each changed by one patch, and the build does not write to the sources; for the compiler only after status 0 and if its name is a link. The full claim is false: C129_twice_refuted (two patches of a file: i is never incremented), C129_added_refuted, C129_name_refuted, C129_failure_refuted (cc stays libcare-cc after exit 1), C129_compiler_refuted (cc a regular file is deleted), C129_signal_refuted. |
| C130 | Each program that changed gets the patch made of its own two builds | LpModel: the script libcare-patch-make on a file system of files with times and links; make, patch and the tools are functions | invariant of the tree while patches are applied (patched), restore_origs as a permutation of moves (restore_backs); induction over the executables; concrete runs for the refuted parts | partial. C130_made is the claim without --buildid, for distinct build ids, on the loop of build_kpatches. False parts: C130_undo_refuted (a failing --undo-link is ignored), C130_given_refuted (with --buildid the patches overwrite each other), C130_silent_refuted and C130_status (failures of make and patch are ignored). |
| C131 | The original build is made from the original sources | LpModel with make's rule for one source file (LpSpec.rules) | the files the rule reads followed through the eight steps of the build; two concrete runs for the refuted part | partial. For a program of one source file under make's rule and one patch: C131_fresh (with --clean, or nothing built before) and C131_killed (backup left by a killed run). Without --clean a second run is false: C131_again_refuted. Times of files are those of a clock that advances with every program run. |
| C132 | The functions and variables a compiler writes become the blocks of the file | TextModel, ParseModel; UnitSpec says what a compiler writes, per machine | each kind of line is classified (UnitProofs), each unit is one step of blocks_from (UnitProofs2), induction over the units | partial. C132_units for four machines, except whether a variable that another variable follows is global, which is false both ways (C132_global_lost_refuted, C46_static_variable_global_refuted). Also false: .ascii on RISC-V (C132_riscv_ascii_refuted), unlikely parts on ARM (C132_arm_cold_refuted); these are left out of what C132_units takes a compiler to write. Names have no delimiter or quote; .weak and .hidden lines are not among the lines. |
| C133 | A call of an indirect function's resolver gives the process's own answer and leaves no trace | CallModel: call, system call and breakpoint instructions of four machines decoded from memory, the called function a parameter; execute_remote of PtraceModel | inversion of a successful run (execute_success), the run when nothing fails (execute_quiet), the registers and memory at the entry (call_shape) | partial. C133_answer (whenever it reports success and the code was run) and C133_done (nothing fails: it succeeds and memory is the same but for the stack below the stack pointer). False: the red zone of x86 is overwritten (C133_red_zone_refuted), the resolver is not given the hardware capabilities on AArch64, RISC-V, LoongArch (C133_hwcap_refuted), a SIGSTOP before the code ran counts as success (C133_early_stop_refuted). Of the processor, only the instructions injected are modelled. |
| C134 | What the search for coroutines asks of the process is answered truly and leaves no trace | CallModel: kpatch_arch_prctl_remote, locate_start_context_symbol | as C133; the words makecontext reads are those stored (entry_words) | partial. C134_base, C134_base_done, C134_start and C134_start_done on x86, the latter for a makecontext that puts __start_context where glibc does. False: a failing restoring write is not reported, an early SIGSTOP gives the old word, AArch64 makes a system call instead of the call, LoongArch stores at a sixteenth of the stack pointer and jumps to t0 (the _refuted theorems). RISC-V's makecontext does not put __start_context where it is looked for. On x86 the 46 bytes injected are decoded (C134_code). |
| C135 | Objects looked up by an expression are the ones meant | CallModel: basic regular expressions, compiled and matched by backtracking | the matcher against its meaning (here_spec, from_spec), then per expression | partial. Exactly which names each expression takes, and that the first of them is the answer: C135_heap, C135_libc, C135_tcmalloc, C135_program (names without special characters). False: libc.so.6 is not found on x86 and AArch64 (C135_libc_refuted), another library is taken for libc (C135_other_libc_refuted), any object containing the program's name for the program (C135_program_refuted). Basic regular expressions are modelled without brackets, groups and bounds. |
| C136 | kpatch_gensrc does what its command line says | GenMainModel: getopt_long on the words, the switch of main on files, the two modes | scan of each spelling (scan_says); an invariant over the options (steps_reach) and its converse (steps_back) | partial. C136_reads, C136_shortened, C136_no_such_option, C136_joined, C136_end_of_options, C136_filter, C136_patch, C136_success, C136_refuses, C136_operand and C136_frame for all command lines, given room on the disk. False: a full disk is not noticed (C136_full_disk_refuted), a refused run has emptied the output (C136_refusal_keeps_output_refuted), --output is spelled --ouput (C136_output_word_refuted), unknown systems and machines are accepted (C136_unknown_os_refuted). Standard input and output as files are not modelled. |
| C137 | What the compiler wrapper assembles is the patch source made by kpatch_gensrc from the two files | GenMainSpec.did: the steps of CcModel's history on files, kpatch_gensrc as GenMainModel's program | each run of kpatch_gensrc with status 0 by C136's lemmas, the renames between them, all names different; composed with C100_compile | partial. C137_patched_stage and C137_compile for all files and options, with the options of C137_defaults or any others the environment gives, if no program is ended by a signal and there is room on the disk. Without the first condition false: C137_killed_refuted. Other programs may do anything to files in their steps. |
| C138 | What is done to a process is done to its present memory | RaceModel: processes with images and maps acting between any two steps of the tool; the descriptors and the map it has read; placing by HoleModel.place | an image once left is never used again (was, gone); what a stopped process has does not change (acts_held); placing in a map that is current by C15 (placed_next) | partial. C138_unpatch, C138_started and C138_info for every interleaving without shared images. A running process that is patched: only if it does nothing between the reading of its map and the attaching (C138_running_partial); otherwise false, and the patch is mapped over what it has mapped meanwhile (C138_running_mapped_over_refuted), into the program it has executed meanwhile (C138_running_exec_refuted) or into another process (C138_running_number_refuted). With shared images false also for unpatch (C138_unpatch_shared_refuted). The map is read at one moment; being killed while stopped is not modelled. |
| C139 | A package holds the patches of its list | PkgModel: the lines of the list as bash's read gives them, the steps of main with `set -e`; patch, rpmbuild, hook, installing and kpatch_make are functions | induction over the entries of the list (list_applied); the directory of patches as a map under gen_loop (gen_spec) | partial. C139_in_order and C139_total for all lists without backslashes and without blanks in names; C139_made and C139_failed_step for every build. The full statement is false: a comment ending in a backslash swallows the next patch (C139_backslash_refuted), a name with a blank ends the build (C139_blank_refuted), a failed rpmbuild is not noticed (C139_rpmbuild_failure_refuted), with KP_PROJECT_BUILD_ID all programs but one lose their patch (C139_one_id_refuted), and a program without build id is passed over in silence (C139_no_id_refuted). Wildcards in names are not modelled; patch, rpmbuild, the installing and kpatch_make are functions. |
| C140 | A packed patch is found for the program it was made from | PkgModel.unpack and its store as the file system of StorageModel | what each unpacked file adds to the store (one_look, unpack_ok), then C26's theorem and uniqueness of what is stored; C140_made with C39's theorem about MakeModel | proved. For a store that was empty; unpacking a third time over a store, where ln fails, is not modelled. That the output of kpatch_make is well formed is a premise of C140_shipped; C140_made discharges it for patches made by successful runs of kpatch_make on relocatable objects, build ids of 40 characters. |
| C141 | Messages report what happened and change nothing | LogModel: messages with an oracle for what each write does to errno; the level after getopt of CliModel | case by case over the calls, induction over their sequence; the words of info followed through getopt (info_events) | partial. C141_errno without condition; what is written when output leaves errno alone (C141_shown_partial). False: the number reported is the one writing has left (C141_reported_errno_refuted); kperr's arguments are evaluated after errno was set to 0, so strerror(errno) in them names no failure (C141_kperr_text, C141_kperr_names_failure_refuted); info without -v silences a server for good (C141_level, C141_stays_verbose_refuted). That log_indent stays below eight is a premise. |
| C142 | Every program that changed is installed, or the build of the package fails | InstModel: the words of KP_INSTALL_FILES, install as a map of files, the check for a substring | the words of a text of pairs (split_pairs), the map under install (install_spec), where a word followed by a blank can be in such a text (listed) | partial. C142_installed, C142_named, C142_unlisted_fails, C142_passes without condition beyond words without blanks; that a patched program is installed needs that no longer path listed ends in its path (C142_complete_partial). False without: C142_complete_refuted (another program of that name below a directory is listed; the check looks for a substring). A tab after a name makes the build fail although the program is listed (C142_tab_refuted). |
| C143 | A strict sanity check passes only programs with the same functions and data | InstModel: de-offset-syms.awk on decoded rows of readelf, sort and diff as equality of multisets, the loop of kp_sanity_check | the filter and regular expressions against a description of names (skip_iff, line_iff), counting against Permutation (same_iff), shifted addresses (de_offset_shift) | partial. For the symbols that are compared (C143_same, C143_no_debug, C143_counted), sections may move (C143_moved). False of all symbols: names with two underscores in front and names ending in a dot and a number are left out (C143_all_symbols_refuted); with no symbols at all everything passes (C143_stripped_refuted). A list of allowed differences is not looked into; exactly one debug file of a program is found. |
| C144 | Every program the pattern names is announced before it starts, others are left alone | ExecModel: `run` of a call gives what others see (connection, message, breakpoint, the real call) and how the process ends; fnmatch, realpath, memory, the server and the real calls are parameters | case analysis on the calls (run_cases); the message with the server's decoder (`delivered`, C05), the address with C109's reading of addresses | partial. proved: what each call does for programs the pattern does not match (C144_transparent) and for those it matches when the server answers and traces (C144_announced), that the server reads the message as meant (C144_server), that the process is killed when it cannot be announced (C144_gives_up), that nothing matched runs unannounced and program and arguments never change (C144_never_unannounced), where errors come from (C144_failed); refuted: programs found through PATH are announced, a program starts although there is no server or it does not attach, 1024 arguments, a relative path that does not exist |
| C145 | A program that is announced has this library, and nothing else, taken out of LD_PRELOAD | ExecModel: `filter_value` and `filter_environ` with strings as lists; reads and writes out of bounds are VUndef | position of the first occurrence by induction over the entries before it; a pattern that has no colon and one slash cannot overlap | partial. proved: the exact environment for lists with this library anywhere but last or first in the root directory (C145_environ), that the first place works (C145_first_partial), that nothing else changes (C145_others), that the last place and the root directory are undefined behaviour (C145_last, C145_root); refuted: it is taken out when it is alone, others stay when it is between them, other libraries with a similar name stay |
| C146 | libcare-patch-make does what its options say | LoptModel: getopt of util-linux (scan, quoting), the text usage leaves in TEMP, the shell's reading of it (shell: words, or more than words), main's loop, the check of the id, main as in LpModel | the quoting is undone by the shell for every string (induction over the string and the words); scanning by cases over the ways to write an option, beginnings of names by enumeration of the seven names; the trace by unfolding LpModel | partial. Proved: C146_reads (all ways of writing, values arrive unchanged through getopt and eval), C146_steps (order of the steps), C146_refused (no id or more than seven characters), C146_id (an accepted id is told apart from every other, single bytes). False: a wrong command line is not refused, the usage text is evaluated as commands (C146_unknown_evaluated, C146_unknown_name_evaluated, C146_missing_evaluated, C146_help_refuted); a refused run moves backups (C146_refused_refuted); in UTF-8 an accepted id can be cut (C146_id_refuted); variables of the environment count as options (C146_environment_refuted); a build id with a blank is dropped silently (C146_build_id_refuted). |
| C147 | The patched build of QEMU keeps its relocations and the build configuration is given back | LoptModel: grep, sed's c command and the two functions on the text of config-host.mak | by the number of lines that set the flags: none, one, several | partial. Proved for files that end with a line end: given back if no line with the flags has a backslash (C147_given_back_partial), flag present during the build with bash and one such line (C147_linked_partial). False otherwise: the C147_..._refuted theorems. |
| C148 | The scripts of the build workflow get the inputs the description names | ToilModel: parseFileInfo, myabspath, importLocalFiles, FileFetcherJob; os.path.abspath, files, net and the names toil accepts are parameters | the text functions against relations (says, lies) by induction over the text; import and download by induction over the list, with names that differ | partial. Proved for entries with different names: exactly what each stands for is there (C148_inputs), and the work stops exactly if a local file cannot be read or a required download is missing (C148_stops). False: a required local file may be missing (C148_missing_refuted), a relative path with a slash is not meant from the description's directory (C148_relative_refuted), the star stays in a name without slash (C148_star_refuted), two entries of one name (C148_twice_refuted). |
| C149 | The build workflow uses what was built before, and uploads the patch it tested | ToilModel: expose and pickup, the three scripts as functions of a directory, UploadJob, DoBuild, the whole run (package) | case analysis over what is there; a storage only grows | partial. Proved for patches and archives in a bucket: which scripts run, from the description of the package on and depending on what the bucket has (C149_run), what is in the directory of results (C149_results), which scripts run, on what, and what is uploaded (C149_from_source, C149_from_archive, C149_only_test), that it succeeds if the scripts do (C149_succeeds), inputs kept (C149_inputs_kept), the uploaded patch is the tested one (C149_tested). False: changes of files are not picked up, a build without a patch succeeds, an old patch is uploaded in place of the one built, a local archive is not found, a local patch is put elsewhere than it is looked for, a starred archive cannot be uploaded (C149_..._refuted). |
| C150 | libcare-pkgbuild works on the directory it was given and removes nothing else | PkoptModel: dirname and basename, prepare, the order of main's steps, the cutting of unquoted variables | induction over the words; names by cases on their slashes | partial. Proved for names the shell does not cut: C150_runs (the action, the files read and removed, the steps and the status), C150_no_info, C150_refused, C150_help. False: a directory that cannot be entered is taken for the top one, a blank in the name makes the script run and remove another file, options behind an empty word are passed over, without DIR it works on the top directory, a build without the archive fails only after the trees were removed (C150_..._refuted). |
| C151 | The stages of libcare-pkgbuild start from what the first stage left | PkarcModel: rm -rf, tar and grep on a disk of files and archives; the first stage's work is any function | lookup in filtered and joined lists; names stored and extracted cancel (there_and_back); concrete disks for the refuted parts | partial. Proved: C151_restored (the trees come back as the first stage left them, nothing else changes, if the archive lies outside the trees and DIR stays where it was), C151_packed (when the first stage succeeds), C151_originals (which packages are installed). False: if DIR was moved the trees go to the old place and the stage goes on (C151_moved_refuted), if DIR lies in the build root the archive and DIR are removed (C151_inside_refuted), a package with a similar name is not installed (C151_similar_refuted), and none without KP_PROJECT_SOURCE (C151_no_source_refuted). |
| C152 | Packages are built with the compilers replaced | UtilModel: looking commands up in PATH before and after the links are made | induction over PATH; names with simple last parts are told apart (same_last) | partial. Proved: C152_goes_on (when the script goes on), C152_wrapped (cc, and what of gcc, g++ and c++ is in /usr/bin), C152_others. False: a compiler found elsewhere than in /usr/bin is not replaced (C152_elsewhere_refuted), and cc is there afterwards where there was none (C152_new_cc_refuted). |
| C153 | The test of a package runs the original programs | BackModel: kp_install_files in the direction to_prebuild | induction over the list of files | partial. Proved: C153_originals, C153_missing (when it fails), C153_left_over (a word left over fails), C153_round_trip. False: a program listed with IGNORE stays the one of the build (C153_ignored_refuted). The only package that uses it names /root/root.original and not DIR/root.original. |
| C154 | Replacing a tree node, and freeing a tree in postorder | RbMoreModel: loads and stores of rb_replace_node and of the postorder walk, the body of which frees the node | path to the node and counting of nodes (replace_ok); the steps above the node with the subtrees still to do (free_ok) | proved. Proved: C154_replace, C154_shape, C154_postorder. Beside it: a walk in the order of the keys that frees its nodes reads freed memory even with the next node found first (C154_inorder_refuted), which the property does not promise. |
| C155 | Replacing, joining and cutting lists | ListMoreModel: loads and stores of list_replace, list_splice, list_splice_tail and __list_cut_position | ways whose end or beginning is exchanged (linked_end, linked_begin) | partial. Proved: C155_replace, C155_replace_head, C155_splice, C155_cut, C155_cut_splice. False: that every head can be used afterwards. The head of a list put into another is not empty and a loop over it never ends (C155_source_refuted); cutting at the head itself leaves the new head broken (C155_cut_head_refuted). |
| C156 | Loops over lists from the middle and backwards | ListLoopModel: the loops of list.h no tool uses | induction over the entries to come, those kept behind (each_safe_back_spec) | partial. Proved: C156_middle, C156_prepared, C156_safe, C156_safe_reverse, C156_first, for bodies that free the entry they are at. False for a body that frees the entry to come (C156_next_freed_refuted). |
| C157 | The time that programs under test sleep | FastModel: init_mult, fast_sleep, fast_nanosleep with the arithmetic of uint64_t and long; the real nanosleep as a function from its argument to the time slept or EINVAL | quotients and remainders by hand: the sum of two quotients is the quotient of the sum but for the carry, and there is none if the factor divides a second; refutations by computation | partial. Exact for sleep whenever the product fits, so always with the factor of the tests, and for nanosleep whenever the factor divides a second and the request can be counted in nanoseconds; for other factors never more and at most a second less. Refuted: with nine tenths a second is lost in the carry (C157_carry_refuted); invalid requests are slept (C157_einval_refuted); negative SLEEP_MULT is taken (C157_negative_refuted); overflow (C157_range_refuted, C157_wrap_refuted). |
| C158 | The verdicts of the test script | TestsModel: grep on lists of lines, the four checks, should_skip, the loop and the ends of main, wait_file; outputs of the programs and the machine are given | found is shown to be the existence of a text before and behind; induction over the list of tests; cases of the names | partial. Every check, the list of tests left out, the counts and the status are proved for all outputs and lists of tests. Refuted: the script also ends with 0 having run nothing, for the flavors of the start on some machines (C158_nothing_run_refuted, exactly those: C158_early, C158_not_run); the test called simplest is passed by a program that prints nothing (C158_silent_refuted). |
| C159 | The verdicts of the tests of kpatch_gensrc | GccTestModel: the loop and the counts of the script; diff is any function whose sides give the two files, an output may be missing | induction over the differences: where none has the key word both sides keep the same lines with it | partial. Proved: a case that passes with an output has its key lines unchanged (C159_ok), one given back unchanged passes (C159_same), the counts and the status (C159_exit, C159_old). Refuted: with no output at all every case passes (C159_no_output_refuted); other lines may be lost (C159_other_lines_refuted). |
| C160 | The arrays of lines grow in time | GrowModel: arrays with their sizes, stores outside them an outcome of their own; kp_realloc, the loops of read_file and init_multilines (the same on the four machines) | invariant: the array holds the lines so far at its beginning and has room for one more; a line fits if and only if the size after at most one doubling is greater (fits) | partial. Proved: C160_read, C160_statements, C160_numbers for every file; C160_room: no error if no line has more than 1000 statements and the first four fewer than 128 together. Refuted: 255 statements in line 1 are an error (C160_thousand_refuted). The sizes in bytes are taken to fit an int. |
| C161 | The descriptions of sections are freed once | SectFreeModel: pointers to predefined and to allocated descriptions, what is freed, the tree of names; a read of freed memory and a wrong free are an outcome of their own | invariant: while files are read nothing is freed and every pointer in the tree, in prev and in the array is good; the places where the array changes are the descriptions made, in order (lines_spec) | proved. For every sequence of directives in both files. That files are closed after both were read is needed (C161_order_matters: the tree keeps freed descriptions). A file has at least one line and malloc succeeds. |
| C162 | The streams of kpatch_gensrc | StreamModel: which streams were opened and closed; the use of a closed one is an outcome of its own; read_file, create_file, close_file and the loop over the options in main | invariant: each file opened is closed or is the output, the output is open, stdin and stdout are closed only if - was given (step_spec) | partial. Proved if - is given at most once for an input and at most once for the output (C162_streams_partial). Refuted: two inputs - (C162_stdin_twice_refuted, in general C162_stdin_twice) and two outputs - (C162_stdout_twice_refuted) use a closed stream. |

## What is modelled

By source file; functions not listed under "not modelled" are rendered in the model
named.  Memory management, logging and debug output are left out everywhere.

| source | model | not modelled or simplified |
|--------|-------|-----------------------------|
| kpatch_patch.c | EngineModel, SafetyModel, DriverModel, ProcModel | libunwind itself (a list of frames and an end status); printing |
| kpatch_process.c | ProcModel, HoleModel, EngineModel, PtraceModel, DriverModel, MapsModel, StartModel, DetachModel, ListModel, MapObjModel, CallModel, RaceModel | a process killed while attached to |
| kpatch_ptrace.c, arch/*/arch_ptrace.c | PtraceModel, RemoteModel, StartModel, DetachModel, CallModel | registers are a record of those used |
| kpatch_elf.c, arch/*/arch_elf.c, arch_process.c | ElfModel, RelocModel, EngineModel, MapObjModel | section headers, symbols and relocations of a patch are given decoded; a relocation overlapping those tables is not modelled |
| kpatch_coro.c, arch/*/arch_coro.c | CoroModel, CallModel | libunwind's address spaces; makecontext itself is a parameter with what glibc's does stated |
| kpatch_storage.c, kpatch_common.c | StorageModel | the file system is a function from names to contents and failures |
| include/list.h | ListModel, ListMoreModel (replacing, joining, cutting), ListLoopModel (loops from the middle) | |
| rbtree.c, rbtree.h | RbModel (parent pointers as a path of subtrees), RbHeapModel (loads and stores), RbMoreModel (replacing a node, postorder) | rb_replace_node_rcu (declared, not defined) |
| kpatch_user.c, libcare-ctl.c | CliModel, DriverModel | texts of the usage messages |
| libcare-client.c, libcare-server.c | ServModel (messages, handle_client), LoopModel (commands, descriptors, accept loop, addresses), CliModel | line buffering of stdout; signals while a command is executed; what the client prints |
| kpatch_make.c | MakeModel, CliModel | |
| kpatch_gensrc.c | RenameModel, CmpModel, GenModel, GenMainModel | the block that reports renames; the usage text; the contents of standard input and output (StreamModel has when they are open) |
| kpatch_parse.c, kpatch_io.c, arch/*/arch_parse.c | TextModel, ParseModel, GrowModel (the arrays of lines), SectFreeModel (the lifetime of sections) | freeing of names and types of files |
| kpatch_dbgfilter.c | DbgModel | |
| kpatch_strip.c, kpatch_elf_objinfo.c, arch/*/arch_strip.c | StripModel, FixupModel, StripMainModel | libelf: objects are given decoded, and its own failures |
| kpatch_cc.c | CcModel (main, init, split_args, get_file_type, modify_args, run_cmd, run_gensrc, do_dbgfilter, do_generate_kpatch, get_assembler_filename, make_dirs, compile_single, build_multiple, emulate_cc), CopyModel (copy_file) | kpccdebug output, malloc failures, unlink before a copy, fork failing; fork, execve and waitpid are one event |
| scripts/pkgbuild, scripts/patch_list_apply | PkgModel (patch_list_apply, kp_gen_kpatch, kp_unpack_patch, main's action build), InstModel (kp_install_files from the build, kp_check_missing_files, kp_sanity_check, de-offset-syms.awk), PkoptModel (prepare, clean_dirs, main), PkarcModel (clean_dirs, kp_pack_prebuilt, kp_unpack_prebuilt, kp_install_orig_rpm), UtilModel (overwrite_utils), BackModel (kp_install_files to the build) | the other steps of the actions prebuild and test apart from kp_unpack_patch, what rpmbuild, yum, patch, tar, readelf, sort and diff do |
| libcare-dump.c | DumpModel | |
| libcare-patch-make | LpModel, LoptModel (options, config-host.mak) | changes of directory, what the usage text does as commands; make, patch and the tools are functions |
| scripts/toil/pkgbuild.py | ToilModel | restart, printing, modes and sizes of files, the promises of toil (a job gets the storage its promise stands for), the contents of directories; the scripts in containers are functions |
| tests/execve/execve.c | ExecModel | fnmatch, realpath and the C library's calls are parameters; debug output |
| tests/fastsleep.c | FastModel | finding the real nanosleep |
| tests/gcc_ge8_gensrc/run_gcc_ge8_gensrc_test.sh | GccTestModel | read as bash (its first line lacks the !); what is printed |
| tests/run_tests.sh | TestsModel | starting, patching and killing the programs: their outputs are given; what is printed; the other files under tests (programs and their makefiles) |
| kpatch_log.c | LogModel | formatting; debug output of the other files is left out of their models |

## Trusted base

* Coq's kernel (8.16.1).
* `Print Assumptions` prints "Closed under the global context" for every theorem in
  the Properties files: no axiom is used.  (The standard library's `ssrunder` is
  loaded indirectly and declares seven axioms, `Coq.ssr.ssrunder.Under_rel.*`; no
  theorem depends on them.)
* The reading of the C code: that each definition renders the lines it cites, with
  the simplifications its comment states.
* The oracle interfaces: what a remote operation may do when it fails is as
  RemoteModel and PtraceModel say.
* The specifications: decoders of instructions and operands (JumpSpec, RelocSpec),
  the layout rules of ELF notes and hash tables (ElfSpec), the sections of an
  assembler (SectSpec), what the moves do (GotSpec) were written from the manuals.
