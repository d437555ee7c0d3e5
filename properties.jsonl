{"id": "C01", "title": "Patch then unpatch restores every code byte", "statement": "If `patch` of an object in a running process succeeds and the same patch id is later unpatched successfully, every byte of the patient outside the memory region mapped for the patch has exactly the value it had before patching, and the patch region itself is unmapped again. The unpatch knows only what it reads back from the patient's memory (header, info table, saved code).", "quantifier": "every initial patient memory, every patch image with non-overlapping hunks outside the patch region, every number of hunks, every allocation address, every undo/info offset that the layout can produce", "why_tests_cant": "Tests patch one or two functions of one sample binary; they cannot cover every memory content, hunk count, table size or placement, nor the byte-level round trip of the header through the patient's memory.", "anchors": ["src/kpatch_patch.c: object_apply_patch, object_unapply_patch, object_find_applied_patch_info", "src/arch/x86/arch_patch.c: patch_apply_hunk", "src/kpatch_process.c: kpatch_process_associate_patches"]}
{"id": "C02", "title": "Patching touches only the patch region and the patched entry points", "statement": "Whatever happens while one object is being patched (success, any failing or short write, death of the tool in the middle), the only bytes of the patient that can differ from before are inside the newly mapped patch region or among the HUNK_SIZE bytes at the entry of a function listed in the patch as replaced.", "quantifier": "every memory, patch image, every outcome of every remote write, every crash point", "why_tests_cant": "A test observes a few addresses after a complete run; it cannot enumerate all failure and crash points nor all addresses.", "anchors": ["src/kpatch_patch.c: object_apply_patch", "src/kpatch_ptrace.c: kpatch_process_mem_write, kpatch_process_memcpy", "src/arch/*/arch_patch.c: patch_apply_hunk"]}
{"id": "C03", "title": "A failed patch of an object is rolled back", "statement": "If patching an object fails at any remote operation and the operations of the roll-back itself succeed, then no byte outside the patch region differs from its value before patching.", "quantifier": "every position at which the patching can fail, every short write, every memory and image", "why_tests_cant": "Needs every failure position in a sequence whose length depends on the number of hunks.", "anchors": ["src/kpatch_patch.c: kpatch_apply_patches (unpatch label), object_unapply_patch", "src/arch/*/arch_patch.c: patch_apply_hunk (PATCH_APPLIED)"]}
{"id": "C04", "title": "Patching several objects is all or nothing", "statement": "If `patch` reports failure for a process then none of the process's objects is left patched.", "quantifier": "every list of objects of a process, every position of the failing object", "why_tests_cant": "Requires failures in the middle of a multi-object patch, which the test-suite cannot inject.", "anchors": ["src/kpatch_patch.c: kpatch_apply_patches, process_patch"]}
{"id": "C05", "title": "Unpatch is safe after the tool died in the middle of patching", "statement": "If the tool is killed at any point while patching, a later unpatch of that patch id either refuses or leaves every code byte of the patient as it was before patching.", "quantifier": "every crash point between two remote effects, every hunk count", "why_tests_cant": "A test cannot kill the tool at every instruction.", "anchors": ["src/kpatch_patch.c: object_apply_patch, object_unapply_patch (check_flag 0)", "src/arch/*/arch_patch.c"]}
{"id": "C06", "title": "The same patch id is never applied twice to one object", "statement": "Patching an object on which a patch with the same id is already applied fails and changes nothing in the patient.", "quantifier": "every history of applied patches of the object, every id", "why_tests_cant": "Histories are unbounded.", "anchors": ["src/kpatch_patch.c: object_apply_patch 348-354", "src/kpatch_process.c: kpatch_object_get_applied_patch_by_id, kpatch_object_add_applied_patch"]}
{"id": "C07", "title": "Areas inside the mapped patch region never overlap", "statement": "For every patch the header, the jump table, the ELF image, and the saved-code area each lie inside the mapped region and are pairwise disjoint, the ELF image and the end of the region are page aligned, and the offsets recorded in the header are the ones used for writing (as long as the region is below 4 GiB).", "quantifier": "every image size, number of undefined symbols, number of hunks and hunk size, page size a power of two", "why_tests_cant": "Sizes are unbounded; overlaps appear only at particular remainders.", "anchors": ["src/kpatch_patch.c: object_apply_patch 360-390", "src/include/kpatch_common.h: ROUND_UP"]}
{"id": "C08", "title": "x86-64: the jump written at a patched function lands on the replacement", "statement": "On x86-64 the 5 bytes written at the entry of a patched function decode as a near jump whose target, computed as the processor does, is the replacement function, whenever the displacement fits in 32 signed bits; and when it does not fit the target is wrong.", "quantifier": "every pair of 64-bit addresses", "why_tests_cant": "2^128 address pairs.", "anchors": ["src/arch/x86/arch_patch.c: patch_apply_hunk"]}
{"id": "C09", "title": "AArch64: the branch written at a patched function lands on the replacement", "statement": "On AArch64 the 4 bytes written decode as an unconditional branch B to the replacement for all 4-aligned addresses within the reach of B.", "quantifier": "every pair of 64-bit addresses", "why_tests_cant": "2^128 address pairs.", "anchors": ["src/arch/aarch64/arch_patch.c: patch_apply_hunk"]}
{"id": "C10", "title": "RISC-V: the two instructions written at a patched function land on the replacement", "statement": "On RV64 the 8 bytes written decode as auipc/jalr that transfer control to the replacement, for every distance within the +-2GiB that the allocator accepts.", "quantifier": "every pair of 64-bit addresses", "why_tests_cant": "2^128 address pairs; the sign-carry of the low part fails only on particular distances.", "anchors": ["src/arch/riscv64/arch_patch.c: patch_apply_hunk", "src/arch/riscv64/riscv64_imm.h"]}
{"id": "C11", "title": "LoongArch: the branch written at a patched function lands on the replacement or patching fails", "statement": "On LoongArch64 either patching the function reports failure without touching its code, or the 4 bytes written decode as an unconditional B to the replacement; every distance encodable by B is accepted.", "quantifier": "every pair of 64-bit addresses", "why_tests_cant": "2^128 address pairs.", "anchors": ["src/arch/loongarch64/arch_patch.c: patch_apply_hunk"]}
{"id": "C12", "title": "Free gaps computed from /proc/pid/maps are free and keep guard pages", "statement": "For every well-formed memory map the list of gaps contains only addresses that are unmapped, at least one page away from every mapping on both sides, in increasing order and disjoint; and every unmapped gap of more than two pages below the last mapping is represented.", "quantifier": "every sorted list of mappings", "why_tests_cant": "Unbounded maps; tests see the map of one process.", "anchors": ["src/kpatch_process.c: kpatch_process_parse_proc_maps 535-545, process_add_vm_hole"]}
{"id": "C13", "title": "The address chosen for a patch is free and within jump reach", "statement": "When the search for a patch location succeeds, the whole region [addr, addr+size) lies in one of the free gaps and every byte of it is within the maximum jump distance of every byte of the patched object.", "quantifier": "every list of gaps, object extent, patch size", "why_tests_cant": "Unbounded lists; the unsigned arithmetic wraps only for particular values.", "anchors": ["src/arch/x86/arch_process.c: object_find_patch_region", "src/kpatch_process.c: next_hole, prev_hole, hole_size"]}
{"id": "C14", "title": "When no location exists, patching fails before mapping anything", "statement": "If the location search finds no suitable gap then patching fails and no memory is mapped in the patient.", "quantifier": "every list of gaps and size", "why_tests_cant": "Requires maps without any usable gap.", "anchors": ["src/arch/x86/arch_process.c: object_find_patch_region (return -1UL)", "src/kpatch_process.c: kpatch_object_allocate_patch (if (!addr))"]}
{"id": "C15", "title": "Successive patches of one process never overlap", "statement": "However many patches are placed one after another in one process, the regions are pairwise disjoint and disjoint from the process's own mappings, the list of gaps stays sorted and disjoint, and a guard page remains between patches.", "quantifier": "every sequence of allocations of any sizes", "why_tests_cant": "Sequences are unbounded.", "anchors": ["src/kpatch_process.c: vm_hole_split, kpatch_object_allocate_patch"]}
{"id": "C16", "title": "No thread or coroutine executes or returns into code being replaced", "statement": "When the safety check reports safe, no stack frame of any examined thread or coroutine has its instruction pointer inside a function that the patch replaces (patching) or inside a replacement function (unpatching), provided the unwinder produced the complete stack.", "quantifier": "every set of stacks of any depth, every set of hunks, both directions", "why_tests_cant": "Stack shapes are unbounded.", "anchors": ["src/kpatch_patch.c: object_patch_verify_safety_single, patch_verify_safety, is_addr_in_info"]}
{"id": "C17", "title": "An unreadable stack is not judged safe", "statement": "If the unwinder fails before reaching the end of a stack, the safety check does not report that stack safe.", "quantifier": "every stack and failure position", "why_tests_cant": "Requires unwinder failures at every depth.", "anchors": ["src/kpatch_patch.c: object_patch_verify_safety_single 157-163"]}
{"id": "C18", "title": "Code is rewritten only after a passing safety check of all known threads", "statement": "In every run of patch or unpatch, no function entry is written unless the last safety verification, made after the last time threads were resumed, found all threads and coroutines safe; if threads have to be run forward first the check is repeated after newly found threads are attached.", "quantifier": "every behaviour of threads, timeouts, attach results", "why_tests_cant": "Depends on scheduling.", "anchors": ["src/kpatch_patch.c: patch_ensure_safety, object_apply_patch, object_unapply_patch"]}
{"id": "C19", "title": "Running threads to a safe point waits at the return address of the innermost replaced function", "statement": "For a thread that is inside a replaced function, the address until which it is run is the instruction pointer of the nearest outer frame that is outside all replaced functions, the direct caller of the innermost replaced activation group.", "quantifier": "every stack of any depth", "why_tests_cant": "Stack shapes are unbounded.", "anchors": ["src/kpatch_patch.c: object_patch_verify_safety_single"]}
{"id": "C20", "title": "Temporary breakpoints are always removed", "statement": "After threads were run forward with temporary breakpoints, whatever the outcome (timeout, thread death, wrong stop, failing installation of a later breakpoint), every code byte has its original value, provided the restoring writes succeed.", "quantifier": "every set of threads and target addresses (including equal and adjacent ones), every outcome of the run", "why_tests_cant": "Depends on scheduling and on every failure position.", "anchors": ["src/kpatch_ptrace.c: kpatch_ptrace_execute_until", "src/include/kpatch_ptrace.h: BREAK_INSN"]}
{"id": "C21", "title": "Executing a system call in the patient leaves its code and registers unchanged", "statement": "After code is executed remotely on behalf of the tool, the scratch bytes at libc's base are the original ones, whatever step failed; and after success the registers of the thread are the original ones.", "quantifier": "every code sequence, memory and registers, every failing step", "why_tests_cant": "All failure positions.", "anchors": ["src/arch/x86/arch_ptrace.c: kpatch_arch_execute_remote_func", "src/kpatch_ptrace.c: kpatch_execute_remote"]}
{"id": "C22", "title": "The word-wise memory writer equals a plain write", "statement": "Writing through the ptrace fallback changes exactly the requested bytes to the requested values, for every length and alignment, and reports success only in that case.", "quantifier": "every memory, address, byte string", "why_tests_cant": "All lengths mod word size and all contents.", "anchors": ["src/kpatch_ptrace.c: kpatch_process_mem_write_ptrace, kpatch_process_mem_write"]}
{"id": "C23", "title": "The cached reader returns the patient's memory", "statement": "Every successful read through the page-cached reader returns the bytes of the patient at that address, for every sequence of reads; a read of unreadable memory is reported as failure.", "quantifier": "every sequence of reads of any size at any address", "why_tests_cant": "Depends on history of earlier reads.", "anchors": ["src/kpatch_ptrace.c: kpatch_process_mem_iter_peek"]}
{"id": "C24", "title": "Remote system call results are classified correctly", "statement": "A remote mmap/mprotect/munmap is treated as failed exactly when the kernel returned an error code (-4095..-1) or the remote execution failed.", "quantifier": "every 64-bit result", "why_tests_cant": "2^64 values.", "anchors": ["src/kpatch_ptrace.c: kpatch_mmap_remote, kpatch_mprotect_remote, kpatch_munmap_remote"]}
{"id": "C25", "title": "A completed attach holds every thread", "statement": "When attaching to a process succeeds, every thread that exists is stopped.", "quantifier": "every evolution of the set of threads between the listings", "why_tests_cant": "Race with thread creation and exit.", "anchors": ["src/kpatch_process.c: kpatch_process_attach, process_list_threads"]}
{"id": "C26", "title": "The patch store returns the patch of exactly the requested build id", "statement": "A directory store answers a lookup of a build id with the patch stored under that build id (latest level first, then the plain file) or with not-found/error, independently of which other build ids were looked up before.", "quantifier": "every sequence of lookups, every store content", "why_tests_cant": "History dependence through the cache.", "anchors": ["src/kpatch_storage.c: storage_get_patch, storage_open_patch, storage_stat_patch, storage_load_patch, storage_have_patch"]}
{"id": "C27", "title": "The store's tree is a sorted balanced map", "statement": "After any sequence of insertions and deletions the red-black tree contains exactly the inserted and not deleted keys in order, a search finds a key exactly when it is present, inserting an existing key returns the existing node unchanged, and the depth is at most 2*log2(n+1).", "quantifier": "every sequence of operations on any keys", "why_tests_cant": "Sequences are unbounded; rebalancing has many cases.", "anchors": ["src/rbtree.c", "src/include/rbtree.h: rb_search_node, rb_insert_node"]}
{"id": "C28", "title": "Only well-formed patch files are accepted", "statement": "A patch file accepted by the store has the right magic, its declared size and ELF header lie inside the file, and its declared size covers at least the header, so that no later access derived from these fields is out of bounds.", "quantifier": "every file content", "why_tests_cant": "All byte strings.", "anchors": ["src/kpatch_storage.c: patch_file_verify", "src/kpatch_common.c: kpatch_open_fd", "src/kpatch_patch.c: object_apply_patch 381"]}
{"id": "C29", "title": "x86-64 relocations store the mathematically right value", "statement": "Every relocation of a supported type applied to a patch stores the value required by the psABI (S+A, S+A-P, or the distance to the jump-table slot for GOT references), changes no other byte, refuses locations beyond the section and refuses unknown types.", "quantifier": "every relocation entry, symbol value, section placement", "why_tests_cant": "All 64-bit values.", "anchors": ["src/arch/x86/arch_elf.c: kpatch_arch_apply_relocate_add"]}
{"id": "C30", "title": "A relocation that does not fit is reported", "statement": "If the value required by a relocation cannot be represented in the field, patching fails instead of storing a truncated value.", "quantifier": "every relocation of every type", "why_tests_cant": "Only appears for far placements.", "anchors": ["src/arch/x86/arch_elf.c", "src/arch/aarch64/arch_elf.c", "src/arch/riscv64/arch_elf.c", "src/arch/loongarch64/arch_elf.c"]}
{"id": "C31", "title": "AArch64 relocations encode the right operand", "statement": "Each supported AArch64 relocation changes only the immediate field of the instruction or data word, and the decoded immediate equals the one required by the ABI; out-of-range branch and page relocations are refused.", "quantifier": "every instruction word, symbol value and place", "why_tests_cant": "All 64-bit values.", "anchors": ["src/arch/aarch64/arch_elf.c: kpatch_arch_apply_relocate_add"]}
{"id": "C32", "title": "RISC-V relocations encode the right operand", "statement": "Each supported RISC-V relocation changes only the immediate field and the decoded immediate equals the required one, or the relocation is refused.", "quantifier": "every instruction word, symbol value and place", "why_tests_cant": "All 64-bit values.", "anchors": ["src/arch/riscv64/arch_elf.c", "src/arch/riscv64/riscv64_imm.h"]}
{"id": "C33", "title": "LoongArch relocations encode the right operand", "statement": "Each supported LoongArch relocation changes only the immediate field and the decoded immediate equals the required one, or the relocation is refused.", "quantifier": "every instruction word, symbol value and place", "why_tests_cant": "All 64-bit values.", "anchors": ["src/arch/loongarch64/arch_elf.c", "src/arch/loongarch64/loongarch64_imm.h"]}
{"id": "C34", "title": "Calls to library functions go through a correct jump table", "statement": "Every undefined function symbol of a patch gets its own jump-table slot inside the table; executing the slot, once written to the patient, transfers control to the resolved address; resolving never writes past the table.", "quantifier": "every number of undefined symbols, every resolved address, on x86-64, AArch64, RISC-V and LoongArch", "why_tests_cant": "Unbounded table sizes and addresses.", "anchors": ["src/arch/*/arch_elf.c: kpatch_arch_add_jmp_entry", "src/kpatch_elf.c: kpatch_new_jmp_table, kpatch_count_undefined, symbol_resolve"]}
{"id": "C35", "title": "Library symbols resolve to the exporting library's address", "statement": "A dynamic symbol name resolves to the address of a definition of that name exported by the first shared library, in map order, that exports it, and resolution fails if no library exports it.", "quantifier": "every set of libraries and symbol tables", "why_tests_cant": "All tables; depends on sort and binary search.", "anchors": ["src/kpatch_elf.c: elf_object_load_dynsym, sym_name_cmp, kpatch_resolve_undefined_single_dynamic, kpatch_resolve_undefined, vaddr2addr"]}
{"id": "C36", "title": "Virtual addresses of an object map to the right process addresses", "statement": "For every segment of an object that was matched to its mapping, an ELF virtual address inside the segment is translated to that address plus the load bias, and addresses outside all segments are reported as unknown.", "quantifier": "every program header table and mapping list, with RELRO splitting", "why_tests_cant": "All tables.", "anchors": ["src/kpatch_elf.c: kpatch_elf_parse_program_header, match_program_header_vm_area, vaddr2addr"]}
{"id": "C37", "title": "The build id read from a process is the one in its ELF notes", "statement": "The build id reported for an object is the 40-digit lower-case hexadecimal text of the descriptor of its GNU build-id note, wherever that note is among the notes, and is absent if there is none.", "quantifier": "every note segment content", "why_tests_cant": "All byte strings.", "anchors": ["src/kpatch_elf.c: elf_object_look_for_buildid, kpatch_get_buildid"]}
{"id": "C38", "title": "Unpatch cancels exactly the requested patch on the requested objects", "statement": "Unpatch with a patch id (and optional list of build ids or names) cancels the patch with this id on exactly the objects selected by the list that carry it, and leaves other patches and objects untouched.", "quantifier": "every list of objects, applied patches and selectors", "why_tests_cant": "Histories of patches are unbounded.", "anchors": ["src/kpatch_process.c: kpatch_process_associate_patches", "src/kpatch_patch.c: kpatch_unapply_patches, kpatch_should_unapply_patch"]}
{"id": "C39", "title": "Patch files made by the tool are read back unchanged", "statement": "A patch produced by `kpatch_make` from an ELF object, build id and patch id is accepted by the store, carries the given build id and patch id, and the ELF object extracted from it equals the input.", "quantifier": "every ELF content, build id and patch id", "why_tests_cant": "All contents and lengths.", "anchors": ["src/kpatch_make.c", "src/kpatch_storage.c: patch_file_verify"]}
{"id": "C40", "title": "A command sent to the server is executed with exactly its arguments", "statement": "The argument list the server passes to the command is the one the client was given, for every way the byte stream is cut into packets.", "quantifier": "every argument list within the limits, every segmentation", "why_tests_cant": "Segmentations are exponential in number.", "anchors": ["src/libcare-client.c: main", "src/libcare-server.c: handle_client"]}
{"id": "C41", "title": "A malformed or oversized request never corrupts the server", "statement": "For every byte stream and segmentation the server never writes outside its message buffer or argument array.", "quantifier": "every byte stream and segmentation, every recv outcome", "why_tests_cant": "All streams.", "anchors": ["src/libcare-server.c: handle_client"]}
{"id": "C42", "title": "Unchanged code is never put into a patch", "statement": "When the original and the patched assembler text of a function are the same, patch generation emits no replacement for the function and leaves the original code in place.", "quantifier": "every assembler text", "why_tests_cant": "All texts.", "anchors": ["src/kpatch_gensrc.c: cblock_cmp, analyze_func_cblocks, cblock_write_func"]}
{"id": "C43", "title": "Changed code is always detected", "statement": "If patch generation considers two code blocks equal, then their instruction texts are equal line by line up to blanks, debug directives, and the renaming of local labels and variables established so far.", "quantifier": "every pair of assembler texts", "why_tests_cant": "All texts.", "anchors": ["src/kpatch_gensrc.c: cblock_cmp, strcmp_after_rename"]}
{"id": "C44", "title": "Label renaming is a consistent bijection", "statement": "The renaming table built while comparing never maps one name to two names and its lookups return exactly what was added.", "quantifier": "every sequence of additions, lookups and deletions", "why_tests_cant": "Sequences are unbounded.", "anchors": ["src/kpatch_gensrc.c: rename_add, rename_find, rename_del, strcmp_after_rename, str_do_rename"]}
{"id": "C45", "title": "The tokenizer loses no text", "statement": "Splitting a line of assembler into tokens yields consecutive pieces of the line: apart from skipped blanks their concatenation is the line, every token is non-empty and the loop over tokens ends.", "quantifier": "every line of text", "why_tests_cant": "All strings.", "anchors": ["src/kpatch_parse.c: get_token", "src/include/kpatch_str.h"]}
{"id": "C46", "title": "Splitting a file into blocks covers the file exactly once", "statement": "The blocks into which an assembler file is divided are consecutive, non-empty, and cover every line exactly once.", "quantifier": "every assembler file", "why_tests_cant": "All texts.", "anchors": ["src/kpatch_parse.c: cblock_split, init_multilines"]}
{"id": "C47", "title": "Undoing the link turns every stored address back into section-relative form", "statement": "For every symbol and relocation of the linked patch, after undo-link the value plus the section's address equals the address before, so that re-linking with the same section addresses gives the identity.", "quantifier": "every symbol and relocation table", "why_tests_cant": "All tables.", "anchors": ["src/kpatch_strip.c: kpatch_undo_link"]}
{"id": "C48", "title": "Copying an object file produces an identical file", "statement": "The compiler wrapper's file copy produces a byte-identical file whenever it reports success.", "quantifier": "every content, every pattern of short reads, short writes and interrupts", "why_tests_cant": "Short writes cannot be provoked deterministically.", "anchors": ["src/kpatch_cc.c: copy_file"]}
{"id": "C49", "title": "The debug filter removes only debug information", "statement": "Filtering an assembler file drops only lines of debug sections, debug directives and debug-only labels; every other line is emitted unchanged and in order.", "quantifier": "every file", "why_tests_cant": "All texts.", "anchors": ["src/kpatch_dbgfilter.c: debug_filter, debug_filter_skip, skip_section, skip_ltext_lbl"]}
{"id": "C50", "title": "Saved coroutine registers are decoded correctly", "statement": "Demangling a pointer mangled by glibc's setjmp with the same guard returns the original pointer.", "quantifier": "every 64-bit pointer and guard", "why_tests_cant": "2^128 pairs.", "anchors": ["src/include/kpatch_coro.h: PTR_DEMANGLE", "src/arch/*/arch_coro.c"]}
{"id": "C51", "title": "Patching all processes visits each eligible process once", "statement": "With `-p all`, the operation is attempted for every numeric /proc entry except pid 1 and the tool itself that has an executable, exactly once, and the result is failure exactly when one attempt failed.", "quantifier": "every directory listing and every result of the attempts", "why_tests_cant": "All listings.", "anchors": ["src/kpatch_user.c: processes_do"]}
{"id": "C52", "title": "A usage error is reported as failure", "statement": "A command given invalid options exits with a non-zero status; asking for help does not count as failure.", "quantifier": "every command and argument list", "why_tests_cant": "Finite but untested paths.", "anchors": ["src/kpatch_user.c: usage_patch, usage_unpatch, usage_info, cmd_patch_user"]}
{"id": "C53", "title": "The end of the information table is found exactly", "statement": "Reading the table of replaced functions back from the patient yields exactly the entries recorded in the patch, neither fewer nor more, for every number of entries.", "quantifier": "every list of entries none of which is all-zero", "why_tests_cant": "Unbounded tables; page-boundary effects.", "anchors": ["src/kpatch_patch.c: object_find_applied_patch_info", "src/include/kpatch_file.h: is_end_info", "src/kpatch_elf.c: kpatch_elf_load_kpatch_info"]}
{"id": "C54", "title": "Functions added by a patch never overwrite existing code", "statement": "An information entry without an original function (a function new in the patch) causes no write outside the patch region when patching or unpatching, whatever its position in the table.", "quantifier": "every table", "why_tests_cant": "Unbounded tables.", "anchors": ["src/include/kpatch_file.h: is_new_func", "src/arch/*/arch_patch.c", "src/kpatch_patch.c: object_unapply_patch"]}
{"id": "C55", "title": "A failed allocation never unmaps the patient's memory", "statement": "If mapping the patch region fails, the clean-up unmaps nothing that belonged to the patient.", "quantifier": "every memory map and patch size", "why_tests_cant": "Needs allocation failures with large patches.", "anchors": ["src/kpatch_patch.c: kpatch_apply_patches, object_unapply_patch 725", "src/kpatch_process.c: kpatch_object_allocate_patch"]}
{"id": "C56", "title": "A patch can be cancelled after the tool died", "statement": "If the tool dies while patching an object and some code byte of the patient has been changed, a later unpatch of that patch id succeeds and restores it.", "quantifier": "every point of death", "why_tests_cant": "Needs a crash at every remote operation.", "anchors": ["src/kpatch_patch.c: object_apply_patch", "src/kpatch_process.c: process_get_object_type"]}
{"id": "C57", "title": "Replaced functions closer than one jump are handled", "statement": "If the entries of two replaced functions are less than HUNK_SIZE bytes apart, the patch is refused, or cancelling it still restores the code.", "quantifier": "every table of entries", "why_tests_cant": "Needs adversarial layouts; depends on the order of saving and restoring.", "anchors": ["src/arch/*/arch_patch.c: patch_apply_hunk", "src/kpatch_patch.c: object_unapply_patch", "src/kpatch_strip.c: kpatch_check_info_len"]}
{"id": "C58", "title": "A successful patch is effective", "statement": "If patching an object reports success, the linked image and the completed header are in the mapped region, the region is recognisable by a later run, the entry of every replaced function holds the jump to its replacement, and its original bytes are in the saved-code slot with its number.", "quantifier": "every patch, patient and sequence of environment answers", "why_tests_cant": "Quantifies over incidents during patching and all tables.", "anchors": ["src/kpatch_patch.c: object_apply_patch", "src/arch/*/arch_patch.c"]}
{"id": "C59", "title": "A failed patch leaves no memory mapped", "statement": "If patching an object fails and its roll-back's own operations succeed, the region mapped for it is unmapped again.", "quantifier": "every failure point", "why_tests_cant": "Needs a failure between the remote system call and reading its result.", "anchors": ["src/kpatch_process.c: kpatch_object_allocate_patch", "src/kpatch_ptrace.c: kpatch_mmap_remote", "src/kpatch_patch.c: object_unapply_patch"]}
{"id": "C60", "title": "A usable place for the patch is found if there is one", "statement": "If some free gap within jump distance of the object can hold the patch, the search for a place succeeds.", "quantifier": "every memory map, object and patch size", "why_tests_cant": "Depends on the shape of the whole memory map.", "anchors": ["src/arch/x86/arch_process.c: object_find_patch_region"]}
{"id": "C61", "title": "No thread executes any code of a patch that is being taken away", "statement": "When unpatching succeeds, no examined thread or coroutine was executing code of the patch, including functions that exist only in the patch.", "quantifier": "every table, every set of stacks", "why_tests_cant": "Depends on where threads are when the tool runs.", "anchors": ["src/kpatch_patch.c: object_patch_verify_safety_single 134-136, object_unapply_patch"]}
{"id": "C62", "title": "The temporary breakpoint stops the thread", "statement": "On every supported architecture, after a temporary breakpoint is written at an address, the instruction there is a trapping one.", "quantifier": "every instruction at the address, every supported architecture", "why_tests_cant": "Depends on the instruction that is overwritten and on the instruction set.", "anchors": ["src/include/kpatch_ptrace.h: BREAK_INSN", "src/kpatch_ptrace.c: kpatch_ptrace_execute_until"]}
{"id": "C63", "title": "After running forward every thread is stopped at an instruction boundary", "statement": "When running threads forward to their return addresses ends, for whatever reason, every thread is stopped again and none is left with a program counter inside an instruction.", "quantifier": "every set of threads, every sequence of stops, signals and timeouts", "why_tests_cant": "Depends on scheduling and on signals arriving meanwhile.", "anchors": ["src/kpatch_ptrace.c: kpatch_ptrace_execute_until 370-405", "src/arch/x86/arch_ptrace.c: kpatch_arch_ptrace_waitpid"]}
{"id": "C64", "title": "Failure to run threads forward is reported", "statement": "Running threads forward reports success only if each thread reached its target and every breakpoint was removed.", "quantifier": "every outcome of the run and of the restoring writes", "why_tests_cant": "All failure positions and timings.", "anchors": ["src/kpatch_ptrace.c: kpatch_ptrace_execute_until 407-439"]}
{"id": "C65", "title": "Signals arriving while the tool holds a thread are delivered", "statement": "A signal that arrives while the tool attaches to a thread, runs code in it or runs it forward is delivered to the thread.", "quantifier": "every sequence of signals", "why_tests_cant": "Depends on the timing of signals.", "anchors": ["src/kpatch_ptrace.c: wait_for_stop, kpatch_ptrace_attach_thread", "src/arch/x86/arch_ptrace.c: kpatch_arch_ptrace_waitpid"]}
{"id": "C66", "title": "A remote system call is reported as done only if it was done", "statement": "If a remote mmap, mprotect or munmap is reported as successful, the patient's kernel executed it.", "quantifier": "every sequence of stops of the thread", "why_tests_cant": "Depends on signals pending when the call is made.", "anchors": ["src/kpatch_ptrace.c: wait_for_stop", "src/arch/x86/arch_ptrace.c: kpatch_arch_syscall_remote"]}
{"id": "C67", "title": "A patch once found stays the same for the whole run", "statement": "When a lookup in a directory store has found a patch for a build id, every later lookup of that build id by the same run of the tool returns the same patch, whatever happened to the directory in between.", "quantifier": "every sequence of lookups, any change of the directory between them", "why_tests_cant": "Depends on the history of lookups and of the file system.", "anchors": ["src/kpatch_storage.c: storage_get_patch, storage_load_patch"]}
{"id": "C68", "title": "Patching starts only after the before-script has succeeded", "statement": "With a directory store, a process is patched only if the store has no \"before\" script or the script was run and ended with exit code 0.", "quantifier": "every way the script, fork and wait can end", "why_tests_cant": "Failures of fork and wait cannot be provoked in a unit test.", "anchors": ["src/kpatch_storage.c: storage_execute_script 472-512", "src/kpatch_patch.c: process_patch 567-571"]}
{"id": "C69", "title": "A patch description is read completely and inside its buffer", "statement": "storage_get_description returns the whole description file or, after an error, nothing; it never writes outside its buffer, however the file arrives in pieces.", "quantifier": "every file content, every sequence of short, interrupted and failing reads", "why_tests_cant": "Short reads at every boundary.", "anchors": ["src/kpatch_storage.c: storage_get_description 367-429"]}
{"id": "C70", "title": "A patch is only used for the build id it was made for", "statement": "A lookup returns a patch only if the build id in its header is the one requested.", "quantifier": "every store content, every build id", "why_tests_cant": "All contents of the store.", "anchors": ["src/kpatch_storage.c: storage_get_patch, storage_open_patch", "src/kpatch_process.c: kpatch_process_associate_patches 424-478"]}
{"id": "C71", "title": "Every relocation section of a patch is applied or refused", "statement": "Relocating a patch applies each of its relocation sections, in the order of the section headers, and fails if one of them cannot be applied, in particular if it is of the kind without addends, which is not supported.", "quantifier": "every list of section headers", "why_tests_cant": "All section tables, all outcomes of the individual sections.", "anchors": ["src/kpatch_elf.c: kpatch_relocate 873-897"]}
{"id": "C72", "title": "The ELF headers used for an object are the object's", "statement": "The ELF header and program headers that all later decisions about an object rest on are those of the object, taken from the beginning of its file or from the patient's memory; if they could not be read, operations on the object fail.", "quantifier": "every object, every program header table, every memory content", "why_tests_cant": "All header contents; failed reads at any point.", "anchors": ["src/kpatch_elf.c: elf_object_peek_phdr 28-68, elf_object_set_ehdr 70-104"]}
{"id": "C73", "title": "Objects are classified correctly as shared libraries", "statement": "An object is treated as a shared library, whose symbols resolve references of patches, exactly if it is one.", "quantifier": "every object type, program header table and name", "why_tests_cant": "All names and tables.", "anchors": ["src/kpatch_elf.c: is_interp_exception 179-199, elf_object_is_shared_lib 201-236"]}
{"id": "C74", "title": "The patch's own symbols refer to where the patch was placed", "statement": "After resolution every symbol defined in the patch has the address in the patient of its section plus its offset, .bss-like sections keep their recorded address plus the load bias, and a patch with a symbol that cannot be given an address is refused.", "quantifier": "every section and symbol table, every load address", "why_tests_cant": "All tables and addresses.", "anchors": ["src/kpatch_elf.c: symbol_resolve 742-814, kpatch_resolve 816-871"]}
{"id": "C75", "title": "Every mapping of a process belongs to exactly one object", "statement": "Reading the memory map of a process attributes each mapping to exactly one object, and two mappings of files are in the same object exactly if they are of the same file.", "quantifier": "every memory map", "why_tests_cant": "Maps differ between runs; files with colliding inode numbers or odd names do not occur in tests.", "anchors": ["src/kpatch_process.c: kpatch_process_parse_proc_maps, process_add_object_vma, object_add_vm_area"]}
{"id": "C76", "title": "Exactly the mappings holding a patch are found as patches", "statement": "The patches found in a process are, in order, exactly the anonymous readable and executable mappings that start with the magic string, each with its own header; no mapping of a file is taken for one.", "quantifier": "every memory map and contents", "why_tests_cant": "The tests only have patches made by the tool itself in well-formed places.", "anchors": ["src/kpatch_process.c: process_get_object_type, process_add_object_vma"]}
{"id": "C77", "title": "Reading the memory map never writes outside the name buffer", "statement": "Whatever names the map contains, renaming a patch mapping stays within the buffer that holds the name.", "quantifier": "every memory map", "why_tests_cant": "Overflow needs a file with a special name and a long path.", "anchors": ["src/kpatch_process.c: process_get_object_type, kpatch_process_parse_proc_maps"]}
{"id": "C78", "title": "info lists exactly the patches in the process", "statement": "For every mapped file, info prints its name, its build id and, each once, the ids of exactly the patches for it that are in the process.", "quantifier": "every list of objects and patches", "why_tests_cant": "Histories of patches are unbounded.", "anchors": ["src/kpatch_user.c: process_info, object_info", "src/kpatch_process.c: kpatch_process_associate_patches, kpatch_object_add_applied_patch"]}
{"id": "C79", "title": "Remote calls are made in executable memory of the C library", "statement": "The address used for injected system calls is the start of an executable mapping of the C library of the process.", "quantifier": "every memory map", "why_tests_cant": "Which libraries are mapped below libc varies per process.", "anchors": ["src/kpatch_process.c: kpatch_process_parse_proc_maps"]}
{"id": "C80", "title": "A well-formed command line runs the operation it names on the process it names", "statement": "`patch -p PID FILE`, `unpatch -p PID -i ID [names]` and `info -p PID` run exactly that operation with exactly these arguments; the last of repeated options counts; `-p all` means all processes; options may be written before or after the operands and joined to their argument.", "quantifier": "every list of options and operands", "why_tests_cant": "Unbounded argument lists; interaction with the state of the option parser.", "anchors": ["src/kpatch_user.c: cmd_patch_user, cmd_unpatch_user, cmd_info_user, execute_cmd"]}
{"id": "C81", "title": "The server reads each command from its own words", "statement": "What a command does depends on the words of that command only, not on the commands served before.", "quantifier": "every sequence of commands", "why_tests_cant": "Sequences of commands with state surviving in the option parser.", "anchors": ["src/kpatch_user.c: execute_cmd", "src/libcare-server.c: cmd_update, 137"]}
{"id": "C82", "title": "An operation on a process goes through its steps in order and tells the truth about them", "statement": "A patch is written only after the process was opened, its objects were read, a patch was found, the process was stopped and the before-script succeeded; the process is released exactly once and last; the result is success exactly when nothing was to be done or the work succeeded, and every failed step is reported.", "quantifier": "every sequence of results of the steps and system calls", "why_tests_cant": "All combinations of failures.", "anchors": ["src/kpatch_patch.c: process_patch, process_unpatch", "src/kpatch_user.c: process_info"]}
{"id": "C83", "title": "What an operation opens it releases exactly once", "statement": "Descriptors of the maps and of the memory, unwinding contexts and thread contexts opened during patching, unpatching or querying a process are each released exactly once, whatever fails.", "quantifier": "every sequence of results of the system calls, every number of threads", "why_tests_cant": "Needs failures injected at every point; a double release is not visible in the result.", "anchors": ["src/kpatch_process.c: kpatch_process_init, kpatch_process_attach, process_detach, kpatch_process_free, kpatch_process_kickstart_execve_wrapper", "src/kpatch_coro.c: kpatch_coroutines_init"]}
{"id": "C84", "title": "Reading an assembler file keeps its lines and statements", "statement": "Reading an assembler file gives exactly its lines, and cutting a line into statements drops nothing but the semicolons between statements: every piece is one statement, labels on their own, comments whole.", "quantifier": "every file", "why_tests_cant": "All texts, quotes and nested separators.", "anchors": ["src/kpatch_io.c: read_file", "src/arch/*/arch_parse.c: init_multilines", "src/include/kpatch_str.h: trim_crlf"]}
{"id": "C85", "title": "Renaming a line replaces exactly the tokens that are to be renamed", "statement": "A line written with renames differs from the line only in the tokens that have a new name: each of these is replaced by its new name, every other token and all blanks are kept, and a line without such tokens is copied.", "quantifier": "every line and every table of renames", "why_tests_cant": "All lines; names contained in other names.", "anchors": ["src/kpatch_gensrc.c: str_do_rename, kpatch_write_changed_line"]}
{"id": "C86", "title": "Moves through the global offset table do what the moves did", "statement": "A load or store of a global symbol rewritten to go through the global offset table leaves the registers and the memory as the instruction would have left them; other lines are kept.", "quantifier": "every symbol, register and kind of move, every state of the machine", "why_tests_cant": "All registers and their parts, the state of the stack.", "anchors": ["src/kpatch_gensrc.c: str_do_gotpcrel, get_full_reg, is_rax_reference, 257-431"]}
{"id": "C87", "title": "Every line is filed under the section the assembler puts it into", "statement": "For each line of an assembler file, the section recorded for it is the section that is current for the assembler after the directives up to the line, and reading the sections changes nothing else of the lines.", "quantifier": "every sequence of section directives", "why_tests_cant": "All sequences of .section, .pushsection, .popsection, .previous and .subsection.", "anchors": ["src/kpatch_parse.c: init_sections, parse_section, __parse_section, dup_section, 563-758"]}
{"id": "C88", "title": "The coroutines of a known program are all found, or the operation is refused", "statement": "When the search for coroutines in a process succeeds, every coroutine of the process is in the list with the registers it will resume with; a process of a known kind whose coroutines cannot be found is refused.", "quantifier": "every memory, every list of coroutines and heap, every failing read", "why_tests_cant": "All layouts of lists and heaps and all failures of reads.", "anchors": ["src/kpatch_coro.c: kpatch_coroutines_find, qemu_cloudlinux_find_coroutines, qemu_centos7_find_coroutines", "src/arch/x86/arch_coro.c: get_ptr_guard, _UCORO_access_reg"]}
{"id": "C89", "title": "Looking for coroutines leaves the stack of the process alone", "statement": "The call of makecontext made inside the process changes no byte that the interrupted function may still read: nothing at the stack pointer and above, nor in the 128 bytes below it that the x86-64 convention reserves.", "quantifier": "every memory and stack pointer", "why_tests_cant": "Only a function interrupted while it keeps data below the stack pointer would notice.", "anchors": ["src/arch/x86/arch_coro.c: makecontext_call, locate_start_context_symbol"]}
{"id": "C90", "title": "Stripping keeps a patch's own sections whole, apart and aligned, and lets no function through that is too short to be replaced", "statement": "In the file that kpatch_strip --strip makes, every section of the linked object has its place with the same name, address, link, information and alignment; the sections with kpatch in their names and the symbol and string tables have the same type, flags and contents, .kpatch.info being followed by the empty entry that ends it; the other sections have no contents. The kept sections do not overlap each other or the ELF header, are aligned, and end before the section headers. No file is made if a function to be replaced is shorter than the jump that replaces it.", "quantifier": "every object file", "why_tests_cant": "Every number, size and alignment of sections.", "anchors": ["src/kpatch_strip.c: kpatch_strip, need_section, check_info_len, kpatch_info_end_elem"]}
{"id": "C91", "title": "After undo-link every section that exists in the original has the original's address", "statement": "kpatch_undo_link gives a section of the patch the address of a section of the original only if they have the same name and the original's takes memory; and every section of the original that takes memory and that the patch has gets its address into the patch.", "quantifier": "every pair of original and patch", "why_tests_cant": "Every order and choice of sections in the two files.", "anchors": ["src/kpatch_strip.c: map_patch_to_orig_sections, kpatch_rel_copy_sections_addr"]}
{"id": "C92", "title": "Fixing up the relocations of a patch leaves each pointing where it pointed", "statement": "kpatch_strip --rel-fixup leaves every relocation against a symbol that is not thread-local at its place and pointing to the same place of the same section, changes its type only from a PLT reference to a plain one, and changes no symbol and no byte of a section, except that a load of a symbol's address from the global offset table becomes the computation of that address; after the loader has relocated it the register holds the symbol's address.", "quantifier": "every object file, symbol table and list of relocations", "why_tests_cant": "Every combination of symbols, sections and relocations.", "anchors": ["src/kpatch_strip.c: kpatch_fixup_rela_one, kpatch_fixup_rela, kpatch_get_local_symbol_loc", "src/arch/*/arch_strip.c: kpatch_arch_fixup_rela_copy", "src/arch/x86/arch_elf.c"]}
{"id": "C93", "title": "A relocation against a thread-local variable is led to the original's slot for that variable", "statement": "After --rel-fixup and loading, an initial-exec reference to a thread-local variable reads the slot of the original's global offset table into which the dynamic linker puts that variable's offset from the thread pointer, for variables of the program and of other libraries; it is found whenever the original has one. A local-exec reference is accepted only if the variable has the same offset in the original.", "quantifier": "every original, patch, symbol and relocation, four architectures", "why_tests_cant": "Every content of .rela.dyn and of the symbol tables.", "anchors": ["src/arch/*/arch_strip.c: kpatch_arch_fixup_rela_update_tls, objinfo_find_tls_got_by_offset, objinfo_find_tls_got_by_symname", "src/kpatch_elf_objinfo.c: kpatch_objinfo_load_tls_reladyn"]}
{"id": "C94", "title": "The generated file is the original plus the replacements", "statement": "When kpatch_gensrc succeeds, its output consists, in this order, of: the header of the new file, every function and variable of the original with its lines unchanged and in their order (each function for which a replacement is wanted followed by a label at its end, the new function renamed and put in the patch's section, and its entry in the table of functions), the functions and variables that are new, those to be unlinked, the attributes and the rest of the new file. Only section directives and names are changed in the emitted code, and every function of the original has at most one replacement.", "quantifier": "every pair of assembler files, architecture and set of options", "why_tests_cant": "All files.", "anchors": ["src/kpatch_gensrc.c: write_cblocks, cblock_write_func, cblock_write_var, __cblock_gen, write_new_function, change_section"]}
{"id": "C97", "title": "The table of functions has the layout the loader reads", "statement": "Every entry emitted for a replaced or new function takes as many bytes as the loader's struct kpatch_info, and has the addresses and lengths of the original and the new function, the address of the name and the flags at the offsets of that struct's fields, in 64-bit and in 32-bit mode; for a new function the original's address and length are 0.", "quantifier": "every name and mode", "why_tests_cant": "The text is assembled by another program and read by a third.", "anchors": ["src/kpatch_gensrc.c: write_new_function", "src/include/kpatch_file.h: struct kpatch_info"]}
{"id": "C98", "title": "Options and configuration select exactly the symbols they name", "statement": "An option of the form file:symbol selects that symbol in that file and nothing else, a symbol without a file selects it in all files, options may name any number of symbols; with a configuration file exactly the functions it lists may be patched.", "quantifier": "every option, file and symbol", "why_tests_cant": "All lists and names.", "anchors": ["src/kpatch_gensrc.c: parse_sym_list, in_syms_list, is_func_in_patch_func_file"]}
{"id": "C95", "title": "No change is lost", "statement": "When kpatch_gensrc succeeds, every function of the new file is in the output, with its entry in the table of functions, unless an option or the configuration leaves it out or its code is that of the original function of the same name; every variable of the original is in the new file with the same contents, or is a temporary of the compiler, or an option leaves it out: a changed initial value is refused, not dropped.", "quantifier": "every pair of assembler files, architecture and set of options", "why_tests_cant": "All files.", "anchors": ["src/kpatch_gensrc.c: analyze_var_cblocks, analyze_func_cblocks, cblock_cmp, find_func_block_by_name, write_cblocks"]}
{"id": "C96", "title": "New code has new names and refers to the program by its own", "statement": "In the output of kpatch_gensrc a changed function and all labels in its code carry the suffix .kpatch; a variable that is new carries it too; a function that is the same, and a variable that the program has, is referred to by the name it has in the program, also when the compiler numbered it differently; a new function keeps its name unless the compiler made it, and its labels get the suffix; a function that is left out is referred to by its name in the program. No other name is changed.", "quantifier": "every pair of assembler files, architecture and set of options; labels of functions are not names of other blocks", "why_tests_cant": "The names depend on all passes of the analysis in their order, on every block of both files.", "anchors": ["src/kpatch_gensrc.c: analyze_var_cblocks, analyze_func_cblocks, cblock_make_new_labels, cblock_make_new_name, cblock_func_match_labels, rename_add, rename_del"]}
{"id": "C99", "title": "The compiler wrapper steps aside when it should", "statement": "While a build is configured, and for command lines with nothing to patch, the wrapper becomes the real compiler with the user's arguments unchanged; without its environment it runs nothing and fails. Whenever it hands over, it does so unchanged and has done nothing before.", "quantifier": "every environment, command line and system answer", "why_tests_cant": "All command lines.", "anchors": ["src/kpatch_cc.c: main, init, emulate_cc"]}
{"id": "C100", "title": "Compiling one file through the wrapper", "statement": "cc -c (or -S) of one file through the wrapper makes the same output file from the same options: the assembler file is made with all options, in the patched stage the patch is made from it and the file of the original stage, and the result is assembled into the output file; it succeeds exactly when every step did, and touches no memory outside its arrays.", "quantifier": "every command line of the described form, environment, stage and system answer", "why_tests_cant": "All orders and numbers of arguments, all failures of all steps.", "anchors": ["src/kpatch_cc.c: init, modify_args, compile_single, do_generate_kpatch, do_dbgfilter, get_assembler_filename"]}
{"id": "C101", "title": "The wrapper removes the arguments it was told to remove", "statement": "Exactly the arguments listed in KPCC_REMOVE_ARGS (by default -g) are removed from the command line, all others stay in their order.", "quantifier": "every list, command line and address of the environment", "why_tests_cant": "Depends on where the environment is in memory.", "anchors": ["src/kpatch_cc.c: init, modify_args, bsearch_strcmp"]}
{"id": "C102", "title": "A step that fails fails the build", "statement": "When a program the wrapper runs, a copy, a rename or a directory fails, nothing more is run and the wrapper ends with an error.", "quantifier": "every command line, environment and system answer", "why_tests_cant": "All failures at all steps.", "anchors": ["src/kpatch_cc.c: run_cmd, compile_single, build_multiple, do_generate_kpatch, copy_file, make_dirs, emulate_cc"]}
{"id": "C103", "title": "The two stages of a build meet", "statement": "The patched stage compares with the assembler file that the original stage made for the same output, and different outputs have different assembler files.", "quantifier": "every pair of environments, command line and output name", "why_tests_cant": "All file names.", "anchors": ["src/kpatch_cc.c: get_assembler_filename, do_generate_kpatch"]}
{"id": "C104", "title": "Building from several files through the wrapper", "statement": "A program built from several files: each source file is compiled to its assembler file with all options, patched in the patched stage, and the last command is the user's with each source replaced by the result and all other words in place; it succeeds exactly when every step did, and touches no memory outside its arrays.", "quantifier": "every command line of the described form, environment, stage and system answer", "why_tests_cant": "All numbers and kinds of files.", "anchors": ["src/kpatch_cc.c: init, modify_args, build_multiple, get_file_type"]}
{"id": "C105", "title": "What the server patches, and from where", "statement": "A process that announces its start (execve or startup with its number) is patched from the directory set by the last storage command, or given at the start of the server; update patches every process from it; nothing else makes the server patch a process outside of patch commands.", "quantifier": "every sequence of clients, of messages cut into any pieces, and of results of the operations", "why_tests_cant": "The directory depends on the whole history of the server.", "anchors": ["src/libcare-server.c: cmd_execve_startup, cmd_update, cmd_storage, cmd_server"]}
{"id": "C106", "title": "The program the server runs", "statement": "At most one program started with run exists at a time: the one before is told to end and waited for first, also when the server stops; the client is told the number of the new one; the server signals nobody else, except whom a kill command names.", "quantifier": "every sequence of clients and of results of fork", "why_tests_cant": "Needs all histories, including numbers used again.", "anchors": ["src/libcare-server.c: cmd_run, cmd_kill, kill_and_wait, kill_child, cmd_server"]}
{"id": "C107", "title": "Output and descriptors of the server", "statement": "What a command prints goes to the client that sent it, completely, and to no other; between commands the descriptors are the ones of the start and no connection is held open; a program that is run gets the descriptors of the server that are meant for it.", "quantifier": "every sequence of clients, every table of descriptors at the start and limit", "why_tests_cant": "Descriptors leak or are mixed up only after particular histories.", "anchors": ["src/libcare-server.c: server_execute_cmd, cmd_run, handle_client, cmd_server"]}
{"id": "C108", "title": "The server keeps serving", "statement": "Clients are served one after the other whatever they send and whatever becomes of their commands, until one says stop; after that nobody is.", "quantifier": "every sequence of clients and failures", "why_tests_cant": "All histories of failures.", "anchors": ["src/libcare-server.c: cmd_server, handle_client, cmd_run"]}
{"id": "C109", "title": "Client and server meet at the same socket", "statement": "A client given the name a server listens on reaches that server; without a name it takes /var/run/libcare.sock; names that do not fit are refused.", "quantifier": "every name", "why_tests_cant": "Names at the limit of the address, and bytes never written.", "anchors": ["src/libcare-server.c: server_bind_socket", "src/libcare-client.c: main"]}
{"id": "C110", "title": "The memory map is read as the kernel writes it", "statement": "From /proc/pid/maps the tool gets, for every area in order, the bounds, rights, file offset, device and inode the kernel wrote, and the file's name.", "quantifier": "every memory map, every path", "why_tests_cant": "Paths with blanks, of more than 255 or 1023 bytes, inodes above 2^32.", "anchors": ["src/kpatch_process.c: kpatch_process_parse_proc_maps, perms2prot"]}
{"id": "C111", "title": "The entry point of a started program is the one the kernel gives", "statement": "A program that has just been started is run up to the address AT_ENTRY of its auxiliary vector; without one the tool fails.", "quantifier": "every auxiliary vector, every way read(2) delivers it", "why_tests_cant": "Interrupted and short reads.", "anchors": ["src/kpatch_ptrace.c: kpatch_ptrace_get_entry_point"]}
{"id": "C112", "title": "A process goes by the name of its program", "statement": "The name kept for a process is that of its executable (the first 15 bytes), of the first argument when the executable is the dynamic loader, which alone is treated as one.", "quantifier": "every path and command line", "why_tests_cant": "Names of every length, deleted files, uninitialised bytes.", "anchors": ["src/kpatch_process.c: process_get_comm, process_get_comm_ld_linux", "src/kpatch_coro.c: is_test_target, is_centos7_qemu"]}
{"id": "C113", "title": "The entry point of a program run by the dynamic loader", "statement": "The tool lets the loader go on up to its first mmap, takes the address it returned, and the entry point from the ELF header there; signals the program gets meanwhile are neither lost nor mistaken.", "quantifier": "every sequence of system calls and signals, the four architectures", "why_tests_cant": "Registers of other architectures; a signal at that moment.", "anchors": ["src/arch/*/arch_ptrace.c: wait_for_mmap", "src/kpatch_ptrace.c: kpatch_ptrace_handle_ld_linux"]}
{"id": "C114", "title": "The execve wrapper is let go on once and followed through its execve", "statement": "The wrapper gets one message, is run to its breakpoint and through execve; the tool stays attached to the leader of the threads only, whichever thread called execve.", "quantifier": "every set of threads, every sequence of stops", "why_tests_cant": "Multi-threaded execve; other stops before the breakpoint.", "anchors": ["src/arch/*/arch_ptrace.c: kpatch_arch_ptrace_kickstart_execve_wrapper", "src/kpatch_ptrace.c: get_threadgroup_id"]}
{"id": "C115", "title": "The command line in the output is complete and on one line", "statement": "Every byte of the command line of a started program is printed, those that are not printable in hexadecimal; it cannot put control characters in the output.", "quantifier": "every command line, every way read(2) delivers it", "why_tests_cant": "Arbitrary bytes in arguments.", "anchors": ["src/kpatch_process.c: process_print_cmdline"]}
{"id": "C116", "title": "libcare-dump -c gives back the object file a patch was made of", "statement": "The output is exactly what follows the header of the patch file; for a file made by kpatch_make, the object it was given, up to fewer than 16 zeros. A file without an ELF file behind a header is refused and nothing is touched; only the output ever changes.", "quantifier": "every file, every object, every result of open, mmap and write", "why_tests_cant": "Sizes beyond 2 and 4 GB, short writes, output and input being links to one file.", "anchors": ["src/libcare-dump.c: kpatch_convert_to_elf", "src/kpatch_make.c: make_file"]}
{"id": "C117", "title": "libcare-dump -H shows the ids a patch was made with", "statement": "For a file made by kpatch_make the output has the file's name, the magic string, the patch id and the build id given to kpatch_make, and is determined by the file.", "quantifier": "every file, every id", "why_tests_cant": "Fields without a terminator, ids of every length.", "anchors": ["src/libcare-dump.c: kpatch_dump_kpatch_header"]}
{"id": "C118", "title": "libcare-dump does what its options say", "statement": "Options may come in any order with any names; -H changes no file whatever else is given; only the file named with -o can change, and only with -c; an unknown option makes it fail without doing anything; it does not fail silently.", "quantifier": "every command line", "why_tests_cant": "All command lines, joined options.", "anchors": ["src/libcare-dump.c: main"]}
{"id": "C119", "title": "The tool gives a process back", "statement": "When the tool is done with a process, or has failed to attach to it, every thread it had stopped runs on untraced, threads that died meanwhile are cleared away, no other thread is touched, and the tool comes to an end.", "quantifier": "every set of threads, every state they are in, every thread that vanishes while attaching", "why_tests_cant": "Needs threads that die or vanish at chosen moments.", "anchors": ["src/kpatch_process.c: process_detach, kpatch_process_attach", "src/kpatch_ptrace.c: kpatch_ptrace_detach, kpatch_ptrace_attach_thread"]}
{"id": "C120", "title": "All threads of a process are listed", "statement": "The threads found are the numbers of the entries of the task directory, all of them and in order, for any number of threads; the array never overflows, also when it is used again; failure is reported only if the directory cannot be opened or there is no memory.", "quantifier": "every directory listing, every array left by an earlier call, every failure of realloc", "why_tests_cant": "Unbounded numbers of threads.", "anchors": ["src/kpatch_process.c: process_list_threads"]}
{"id": "C121", "title": "Linked lists behave as sequences", "statement": "Every sequence of list operations (initialise, add, add before an entry, delete, move) on any number of lists that share nothing does to the lists what it does to sequences, touches no memory outside them, and the loops visit each entry once in order; the loop called safe survives a body that frees the entry it is at. The entry added goes where the comments of list.h say.", "quantifier": "every memory, every number and length of lists, every sequence of operations, every choice of entries freed", "why_tests_cant": "Pointer structures of unbounded size, aliasing and use after free.", "anchors": ["src/include/list.h: list_init, list_add, list_del, list_move, list_for_each_entry, list_for_each_entry_safe", "src/kpatch_process.c: kpatch_process_free"]}
{"id": "C122", "title": "Giving up a process frees everything once", "statement": "Freeing the structures kept about a process frees every gap, coroutine, context, object, memory area and patch record in its lists, each exactly once, touches nothing else, and leaves the lists empty.", "quantifier": "every number of objects, areas, patches, gaps, coroutines and contexts", "why_tests_cant": "Nested lists of unbounded size; double free and use after free do not always show.", "anchors": ["src/kpatch_process.c: kpatch_process_free, object_destroy, process_destroy_object_files"]}
{"id": "C123", "title": "A patch applied by one run is found, listed, refused and taken away by later runs", "statement": "After a run has applied a patch to a process, any later run that knows nothing but the process finds it: its id is listed by info under the patched file, applying the same patch id again is refused and changes nothing, and unpatch with that id comes to the right object and region and restores exactly the memory from before the patch.", "quantifier": "every patch, process memory, memory map in which the region is a mapping, set of other mappings and of other patches", "why_tests_cant": "The state is handed over only through the memory of the process and the text of its memory map, whose contents and size are not bounded.", "anchors": ["src/kpatch_process.c: process_get_object_type, kpatch_process_parse_proc_maps, process_new_object", "src/kpatch_user.c: object_apply_patch, object_unapply_patch, object_find_applied_patch_info, process_info, process_unpatch"]}
{"id": "C124", "title": "kpatch_strip runs the one action its command line names on the two files named", "statement": "kpatch_strip runs --strip, --rel-fixup or --undo-link exactly when the command line names one of them once, by its letter or the beginning of its name, and two files; any other command line fails without opening a file. Only the second file is changed, and only to what the action makes of the two; on failure it stays as it was. Success is reported exactly when that happened, and every descriptor is closed once.", "quantifier": "every command line, file system and object file", "why_tests_cant": "Command lines and files are unbounded; tests run the few forms the build uses.", "anchors": ["src/kpatch_strip.c: main, kpatch_open_elf, usage, kpatch_rel_fixup"]}
{"id": "C125", "title": "Loaded files are found with their bias, kind, build id and symbols from the process alone", "statement": "From nothing but the text of the memory map and the memory of a process, every ELF file loaded in it as its program headers say is accepted and gets its load bias, whether it is a library, and the build id in its notes; every address of it in a mapped segment is translated to that address plus the bias and any other to unknown; and a name a patch refers to resolves to the definition of the first library exporting it, at its address plus that library's bias.", "quantifier": "every memory map, memory contents, number of files, program header and symbol table", "why_tests_cant": "All maps and all tables; the tests have a handful of processes on one machine.", "anchors": ["src/kpatch_process.c: kpatch_process_map_object_files, object_map_elf_segments, process_add_object_vma", "src/kpatch_elf.c: elf_object_peek_phdr, kpatch_elf_object_is_shared_lib, kpatch_elf_parse_program_header, kpatch_resolve_undefined"]}
{"id": "C126", "title": "Mappings of files no patch is for do not hinder patching", "statement": "Whether a process can be patched depends only on the mappings of the files the patch concerns.", "quantifier": "every memory map", "why_tests_cant": "Programs that change the protection of their own files' mappings are not among the tests.", "anchors": ["src/kpatch_process.c: kpatch_process_map_object_files, object_map_elf_segments", "src/kpatch_elf.c: kpatch_elf_parse_program_header"]}
{"id": "C127", "title": "Patches of several files of a process do not disturb each other", "statement": "When a process has several files to patch, they are patched one after the other up to the first that fails, and only the regions of the patches and the entries of the functions they replace change. When all were patched and no two patches change the same byte, any of them can be cancelled by later runs in any order: what the cancelled ones changed is as it was before patching, the others stay exactly as they are, and when all are cancelled all of memory is as before.", "quantifier": "every number of files and patches, every order of cancelling, every memory and every failure of the remote operations", "why_tests_cant": "The tests patch one or two libraries and cancel all at once; orders and subsets grow exponentially.", "anchors": ["src/kpatch_patch.c: kpatch_apply_patches, object_apply_patch, object_unapply_patch, kpatch_unapply_patches"]}
{"id": "C128", "title": "The pointers of the tree are kept right and destroying it frees every entry once", "statement": "Starting from an empty tree, through any sequence of insertions and removals of nodes the caller allocated, the tree's operations only follow pointers to nodes that are in the tree and always end; walking forwards from the first or backwards from the last node visits exactly the inserted and not removed nodes, once each, in the order of their keys; a search finds the node with the key if there is one, in at most 1 + 2 log2(n + 1) steps; destroying the tree hands every node to the callback exactly once and never touches a node after that; and no memory but that of inserted nodes is ever written.", "quantifier": "every sequence of operations, comparison that orders the keys, placement of the nodes in memory and contents of that memory before", "why_tests_cant": "Balancing goes through many combinations of colours and shapes, with stale pointers in freed and removed nodes; a wrong one may show only much later, and only for some orders of insertion.", "anchors": ["src/rbtree.c: __rb_insert, ____rb_erase_color, rb_erase, rb_first, rb_last, rb_next, rb_prev", "src/include/rbtree.h: __rb_erase, __rb_change_child, rb_link_node, rb_search_node, rb_insert_node, rb_destroy"]}
{"id": "C129", "title": "Making a patch leaves the build machine as it was", "statement": "After libcare-patch-make ends, whatever its exit status and however it ended, every source file has the contents and the time it had before, no backup file is left, and the name of the system's compiler leads to the compiler it led to before; a signal ends the script.", "quantifier": "every set of patches, every source tree, every behaviour of make and of the tools, every signal", "why_tests_cant": "The tests patch one existing file with one patch and let every tool succeed; what a failure or an unusual patch leaves behind in the tree and in /usr/bin is not looked at.", "anchors": ["src/libcare-patch-make: restore_origs, replace_cc_symbolink, recover_cc_symbolink, build_objects, main"]}
{"id": "C130", "title": "Each program that changed gets the patch made of its own two builds", "statement": "When libcare-patch-make ends with status 0, there is for every installed program whose patched build has a .kpatch section a file in the patch root, named after the build id of its original build, made by all the tools in turn from its two builds, and no other file of the root was changed; if anything failed, the exit status is not 0.", "quantifier": "every set of programs, build ids and tool behaviours", "why_tests_cant": "The tests use packages with one changed program and tools that do not fail.", "anchors": ["src/libcare-patch-make: build_kpatches, main"]}
{"id": "C131", "title": "The original build is made from the original sources", "statement": "The program libcare-patch-make takes for the original one is compiled from the sources as they were before patching, and the patched one from the sources with the patches, also when the script is run again or after it was killed.", "quantifier": "every state of the build directory", "why_tests_cant": "Whether make compiles again depends on times of files from earlier runs; tests start from a clean tree.", "anchors": ["src/libcare-patch-make: restore_origs, build_objects"]}
{"id": "C132", "title": "The functions and variables a compiler writes become the blocks of the file", "statement": "If the lines of an assembler file behind the first are those a compiler writes for a list of functions (section, alignment, .globl, .type, label, instructions, .size, possibly with an unlikely part in another section) and variables (.globl, section, alignment, .type, .size, label, bytes), in any order and with different names, then there is exactly one block per function or variable, of its name and kind, which covers exactly its lines and is recorded as global if and only if there was a .globl line.", "quantifier": "every machine, every list of functions and variables, every instructions and data", "why_tests_cant": "All orders of functions and variables and all bodies; the rules differ in tables per machine.", "anchors": ["src/kpatch_parse.c: cblocks_init, init_func_block, init_var_block, is_function_end", "src/arch/*/arch_parse.c: is_function_start, recog_func_attr, is_data_def, is_variable_start"]}
{"id": "C133", "title": "A call of an indirect function's resolver gives the process's own answer and leaves no trace", "statement": "When the tool resolves an indirect function (ifunc) by calling its resolver in the process, the address it goes on with is what the resolver returns when called there, with the arguments the process's loader gives; the thread's registers are as before, and memory differs at most where a called function may write, below the stack pointer and the area the system reserves there for the interrupted function.", "quantifier": "every machine, every resolver, every answer of the kernel, every sequence of signals", "why_tests_cant": "Depends on the resolver, on signals arriving between injection and breakpoint, and on what the interrupted function keeps below its stack pointer.", "anchors": ["src/arch/*/arch_ptrace.c: kpatch_arch_ptrace_resolve_ifunc, kpatch_arch_execute_remote_func, copy_regs", "src/kpatch_elf.c: kpatch_resolve_undefined"]}
{"id": "C134", "title": "What the search for coroutines asks of the process is answered truly and leaves no trace", "statement": "The base of thread-local storage read with arch_prctl is the thread's, and the word on the stack used for it is put back; the address found by calling makecontext is that of __start_context. Otherwise an error is reported.", "quantifier": "every machine, every state of the process, every answer of the kernel", "why_tests_cant": "Needs a failure or a signal at one exact step; on the other machines the code has not been run.", "anchors": ["src/arch/x86/arch_ptrace.c: kpatch_arch_prctl_remote", "src/arch/*/arch_coro.c: locate_start_context_symbol, makecontext_call"]}
{"id": "C135", "title": "Objects looked up by an expression are the ones meant", "statement": "The heap, the C library, tcmalloc and the program itself, which the search for coroutines looks up by regular expressions, are found if the process has them, and no other object is taken for them.", "quantifier": "every list of objects and every names", "why_tests_cant": "Over all names; tests have the libraries of one system.", "anchors": ["src/kpatch_process.c: kpatch_process_get_obj_by_regex", "src/kpatch_coro.c: qemu_centos7_find_coroutines, qemu_cloudlinux_find_coroutines", "src/arch/*/arch_coro.c: locate_start_context_symbol"]}
{"id": "C136", "title": "kpatch_gensrc does what its command line says", "statement": "Options in any order and spelling are read as documented. With --dbg-filter the output is the input without debugging information as the options ask, otherwise the source of the patch between the two inputs. Success is reported only if every option was understood, all inputs were read and the output holds that result; no other file is touched.", "quantifier": "every command line, every content of the files, every options and spellings", "why_tests_cant": "Over all command lines and file contents; errors of the disk do not occur in tests.", "anchors": ["src/kpatch_gensrc.c: main, parse_sym_list", "src/kpatch_io.c: read_file, create_file, close_file"]}
{"id": "C137", "title": "What the compiler wrapper assembles is the patch source made by kpatch_gensrc from the two files", "statement": "When the wrapper in the patched stage succeeds, the file it assembles is what kpatch_gensrc makes of the original and the patched assembler file, each without debugging information (an empty file if there is no original); no other files but the intermediate ones changed.", "quantifier": "every command line, environment, content of files and answers of the system", "why_tests_cant": "Ranges over two programs, all file contents and all ways a step can fail.", "anchors": ["src/kpatch_cc.c: do_dbgfilter, do_generate_kpatch, compile_single", "src/kpatch_gensrc.c: main"]}
{"id": "C138", "title": "What is done to a process is done to its present memory", "statement": "The process goes on running while the tool opens its files and reads its map. When the tool writes into it, the process is stopped, the map that was read is its present map and both open files are of its present image; no mapping of the process is replaced by a patch. A process that has executed another program or has left its number to another is not touched.", "quantifier": "every interleaving of what processes do (mapping, execve, exit, fork, reuse of numbers) with the steps of the tool; every map and any number of patches", "why_tests_cant": "A race; the windows are microseconds wide and the interleavings unlimited.", "anchors": ["src/kpatch_patch.c: process_patch, process_unpatch", "src/kpatch_user.c: process_info", "src/kpatch_process.c: lock_process, kpatch_process_mem_open, kpatch_process_attach, kpatch_process_parse_proc_maps, kpatch_object_allocate_patch, kpatch_process_load_libraries"]}
{"id": "C139", "title": "A package holds the patches of its list", "statement": "libcare-pkgbuild applies every patch of the list in its order and once, skipping comments and empty lines, and stops at the first that fails. If the build succeeds, every step has succeeded, and the package holds, for every program of the patched tree that has patch sections, the patch made from that program for its build id with the id of the list, and nothing else. If a step fails nothing is packed.", "quantifier": "every list of patches, every tree, every behaviour of patch, rpmbuild, the hook, the installing and kpatch_make; any number of programs", "why_tests_cant": "A list or project that loses a patch still gives a package and success; which lists and projects do is not seen from those that do not.", "anchors": ["scripts/pkgbuild: patch_list_apply, kp_build, kp_sanity_check, kp_gen_kpatch, kp_pack_patch, main", "scripts/patch_list_apply"]}
{"id": "C140", "title": "A packed patch is found for the program it was made from", "statement": "After a package has been unpacked into an empty store, every lookup for the build id of a program with patch sections finds the patch made from that program, with level 1 and otherwise byte for byte; a lookup for an id that is not in the package finds nothing. Neither the order of the files nor the order of lookups matters.", "quantifier": "every package with distinct build ids, every order of its files, every sequence of lookups", "why_tests_cant": "Two programs (a shell script and the C reader of the store) agree on names and links for all ids only by proof.", "anchors": ["scripts/pkgbuild: kp_unpack_patch, kp_gen_kpatch", "src/kpatch_storage.c: storage_open_patch, storage_load_patch, storage_get_patch"]}
{"id": "C141", "title": "Messages report what happened and change nothing", "statement": "A message changes neither errno nor anything else the program looks at. A message is written exactly when its level is enabled, errors to the error output; an error is reported with the number and name of the failure. The verbosity asked for on the command line holds for the whole run.", "quantifier": "every sequence of messages, every effect of output on errno, every sequence of commands given to a server", "why_tests_cant": "Callers branch on errno after a message; whether a write changed it depends on where output goes.", "anchors": ["src/kpatch_log.c: kplog, kpfatal, __valogerror, _kplogerror, _kpfatalerror", "src/include/kpatch_log.h: kperr", "src/kpatch_user.c: cmd_info_user", "src/libcare-ctl.c: main", "src/libcare-server.c: main"]}
{"id": "C142", "title": "Every program that changed is installed, or the build of the package fails", "statement": "Every program listed in KP_INSTALL_FILES is copied from the build directory to its place in the tree patches are made from, or the build fails; nothing else gets there. A program that has code of a patch in it and is not listed makes the build fail, so no changed program is silently left without a patch.", "quantifier": "every list of programs, every content of the build directory, every set of patched programs", "why_tests_cant": "The check looks for a substring; whether it accepts a program that is not installed depends on all pairs of paths.", "anchors": ["scripts/pkgbuild: kp_install_files, kp_check_missing_files, kp_install_generic"]}
{"id": "C143", "title": "A strict sanity check passes only programs with the same functions and data", "statement": "If the strict check passes, every program has exactly the functions and objects of the original, with the same sizes and at the same offsets in sections of the same names. Programs that differ only in the addresses of their sections and the order of their symbols pass. A check that is not strict warns of every difference and never stops the build because of one.", "quantifier": "every set of programs, every section table and symbol table", "why_tests_cant": "Which names the filter leaves out is a property of all names; tests see the programs they have.", "anchors": ["scripts/pkgbuild: kp_sanity_check, de_offset_syms", "scripts/de-offset-syms.awk"]}
{"id": "C144", "title": "Every program the pattern names is announced before it starts, others are left alone", "statement": "With the library preloaded, a program that KP_EXECVE_PATTERN matches is started only after the server was sent its thread's number, has answered and has let the process go past the breakpoint; the program and its arguments are the ones asked for. A call for any other program does exactly what it does without the library. A call that fails gives the error of the real one.", "quantifier": "every one of the seven calls, every file, arguments and environment, every pattern, every behaviour of the server and of memory allocation", "why_tests_cant": "The test runs one program under one server that answers; which calls bypass the library and what a failing server does to the caller are about all of them.", "anchors": ["tests/execve/execve.c: is_listed_binary, notify_listener, execve, execv, execvpe, execvp, vexecle, execl, execlp, execle"]}
{"id": "C145", "title": "A program that is announced has this library, and nothing else, taken out of LD_PRELOAD", "statement": "The environment of an announced program is the one the caller gave, except that the entry of this library is taken out of LD_PRELOAD; all other variables and all other preloaded libraries stay, in their order.", "quantifier": "every environment, every list of preloaded libraries, every place of this library in it", "why_tests_cant": "The result depends on where in the list the library is; the test has it first.", "anchors": ["tests/execve/execve.c: filter_environ"]}
{"id": "C146", "title": "libcare-patch-make does what its options say", "statement": "Each option of libcare-patch-make, written with its letter or any beginning of its long name, its value in the next word or joined, before, between or after the patches, has the effect its description gives: the value arrives unchanged whatever characters are in it, the last one given counts, the patches are applied in the order given, --update builds nothing, --clean cleans before the first build. A missing or overlong id, an unknown option and a missing value are refused with the usage text and status 1 before anything is touched; an id that is accepted is the id of the patch.", "quantifier": "all command lines, values and environments, all states of the machine", "why_tests_cant": "The values pass through getopt's quoting and an eval of the shell; all strings and all ways of writing matter, as do combinations of options and the environment the script is run in.", "anchors": ["src/libcare-patch-make:221-289", "src/libcare-patch-make:3-29", "src/kpatch_make.c:39-57"]}
{"id": "C147", "title": "The patched build of QEMU keeps its relocations and the build configuration is given back", "statement": "While the patched sources are built, the line QEMU_LDFLAGS= of config-host.mak has the flag -Wl,-q, without which no patch can be made, and the other lines are as they were; when libcare-patch-make has ended config-host.mak is byte for byte what it was.", "quantifier": "all contents of config-host.mak, both common shells", "why_tests_cant": "The file is arbitrary text passed through grep, echo and a sed script built from it.", "anchors": ["src/libcare-patch-make:86-100", "src/libcare-patch-make:154-167"]}
{"id": "C148", "title": "The scripts of the build workflow get the inputs the description names", "statement": "For pkgbuild.py, each entry of a package description (a URL or path, or a name with one; a star in front makes it optional) puts the file, directory or download it stands for under its name before the scripts, and nothing else is there. A required input that is not there stops the work before any script is run. Relative paths are meant from the directory of the description.", "quantifier": "all lists of entries with different names, all file systems, all answers of the net, all directories", "why_tests_cant": "Names and places are computed from arbitrary text, and what is there depends on the file system and the net.", "anchors": ["scripts/toil/pkgbuild.py:66-103", "scripts/toil/pkgbuild.py:210-253", "scripts/toil/pkgbuild.py:515-592", "scripts/toil/pkgbuild.py:837-884"]}
{"id": "C149", "title": "The build workflow uses what was built before, and uploads the patch it tested", "statement": "pkgbuild.py runs the prebuild script only if the archive of the first stage is not there, and the build script only if the patch is not there; then it runs the test. Each script sees what was fetched and what the scripts before it left. What is uploaded as the patch is what was built, was tested and is among the results; a run that makes no patch fails.", "quantifier": "all storages, all behaviours of the three scripts, all URLs of a bucket, all contents", "why_tests_cant": "The scripts are arbitrary programs run in containers; the claim is about every behaviour of theirs and every combination of files that are there already.", "anchors": ["scripts/toil/pkgbuild.py:161-208", "scripts/toil/pkgbuild.py:668-763", "scripts/toil/pkgbuild.py:788-829"]}
{"id": "C150", "title": "libcare-pkgbuild works on the directory it was given and removes nothing else", "statement": "libcare-pkgbuild [--prebuild] [--test] DIR, with options before or after DIR, carries out the action of the last option (building a patch if there is none) with the info file of DIR: it removes nothing but the build root and DIR/root.original and DIR/root.patched, takes the steps of the action in their order, stops at the first that fails, and reports success exactly if none did. A wrong command line, a DIR that cannot be entered or has no info file are refused before anything is removed.", "quantifier": "every command line, every name of a directory, every outcome of the steps", "why_tests_cant": "What is removed depends on how the shell cuts unquoted names and on which failures `set -e` sees; the script removes whole trees, so that nobody tries.", "anchors": ["scripts/pkgbuild: prepare", "scripts/pkgbuild: clean_dirs", "scripts/pkgbuild: main"]}
{"id": "C151", "title": "The stages of libcare-pkgbuild start from what the first stage left", "statement": "After libcare-pkgbuild --prebuild DIR, building and testing with the same DIR begin with the build root and DIR/root.original exactly as the first stage left them, whatever has been done to them since, with DIR/root.patched empty and every other file unchanged. The first stage fails if nothing was built or no original package was installed. Every package among the originals but the source is installed into root.original.", "quantifier": "all disks, all behaviours of the work of the first stage, all changes between the stages that keep the archive, all names", "why_tests_cant": "The trees are of any size, and what happens between the stages is arbitrary; the archive stores full names, so that the answer depends on where everything lies.", "anchors": ["scripts/pkgbuild: clean_dirs", "scripts/pkgbuild: kp_pack_prebuilt", "scripts/pkgbuild: kp_unpack_prebuilt", "scripts/pkgbuild: kp_install_orig_rpm"]}
{"id": "C152", "title": "Packages are built with the compilers replaced", "statement": "Once libcare-pkgbuild has replaced the compilers, each of cc, gcc, g++ and c++ that a build calls by name runs the libcare-cc found in PATH, and every other command is the one it was. If libcare-cc is not found the script stops before it builds anything.", "quantifier": "all contents of the disk, every PATH, every name of a command", "why_tests_cant": "Which program runs depends on the order of PATH and on what is installed where; a build that misses the wrapper succeeds and makes no patch.", "anchors": ["scripts/pkgbuild: overwrite_utils", "scripts/pkgbuild: prepare"]}
{"id": "C153", "title": "The test of a package runs the original programs", "statement": "Before the test, kp_install_files in the direction to_prebuild puts each program that KP_INSTALL_FILES lists from the original package to the place where it was built, and changes nothing else there; if one is missing the test is not run. The two directions undo each other. No program of the build itself is tested.", "quantifier": "all lists of files, all contents of both trees", "why_tests_cant": "The list is data of each package, of any length, and entries may name the same place.", "anchors": ["scripts/pkgbuild: kp_install_files", "packages/rhel7/glibc/glibc-2.17-55.el7/info: kp_prepare_test_binaries"]}
{"id": "C154", "title": "Replacing a tree node, and freeing a tree in postorder", "statement": "rb_replace_node puts a node that is outside the tree in the place of one inside: walks find it where the old one was, shape and colours and every other node stay, the old node and all other memory are not written, and if both have the same key every later insertion, removal and walk works. The postorder walk with its next node found first lets the body free each node: every node is freed once, before its parent, and no freed memory is read.", "quantifier": "every tree that a program of insertions and removals makes, every node of it, every replacement, every later program", "why_tests_cant": "Parent, child and root pointers are rewritten differently for each position in the tree; a stale pointer shows only in a later operation, and reading freed memory often goes unnoticed.", "anchors": ["src/rbtree.c: rb_replace_node", "src/rbtree.c: rb_left_deepest_node", "src/rbtree.c: rb_next_postorder", "src/rbtree.c: rb_first_postorder", "src/include/rbtree.h: rbtree_postorder_for_each_entry_safe"]}
{"id": "C155", "title": "Replacing, joining and cutting lists", "statement": "list_replace puts a new entry in the place of an old one, or makes a new structure the head of a list, empty or not. list_splice puts the entries of a list before those of another and list_splice_tail behind them; __list_cut_position moves the entries up to a given one to a new list. The order of the entries is kept, cutting and joining again gives the list there was, no other memory is written, and every head can be used as a list afterwards.", "quantifier": "every memory, every length of the lists, every position", "why_tests_cant": "The neighbours coincide with the head for first, last and single entries, and broken links back are seen only by later deletions.", "anchors": ["src/include/list.h: list_replace", "src/include/list.h: __list_cut_position", "src/include/list.h: __list_splice", "src/include/list.h: list_splice", "src/include/list.h: list_splice_tail"]}
{"id": "C156", "title": "Loops over lists from the middle and backwards", "statement": "The loops called continue see the entries behind (or, reversed, before) the one given and not that one, those called from see it too; with list_prepare_entry(NULL) they see the whole list. The loops called safe, also from the middle and backwards, stand a body that takes out and frees entries: they see every entry they should once, and those kept stay in order. list_first_entry_or_null gives the first entry, or NULL of an empty list.", "quantifier": "every memory, every list and position, every choice of entries freed", "why_tests_cant": "Freed memory mostly still holds its old contents in a test; the first and the last position behave differently.", "anchors": ["src/include/list.h: list_prepare_entry", "src/include/list.h: list_for_each_entry_continue", "src/include/list.h: list_for_each_entry_from", "src/include/list.h: list_for_each_entry_safe_continue", "src/include/list.h: list_for_each_entry_safe_from", "src/include/list.h: list_for_each_entry_safe_reverse", "src/include/list.h: list_first_entry_or_null"]}
{"id": "C157", "title": "The time that programs under test sleep", "statement": "A program run with fastsleep.so sleeps the time it asks for times SLEEP_MULT / 10^9, in whole nanoseconds: sleep for every number of seconds, nanosleep for every valid request. SLEEP_MULT is used if it is at least 10^6, else a tenth is taken. A request nanosleep must refuse is refused.", "quantifier": "every value of SLEEP_MULT, every request", "why_tests_cant": "The carry between the two fields and the wrapping around of the products depend on the exact numbers; the tests use one factor.", "anchors": ["tests/fastsleep.c: init_sleeper", "tests/fastsleep.c: sleep", "tests/fastsleep.c: nanosleep"]}
{"id": "C158", "title": "The verdicts of the test script", "statement": "run_tests.sh ends with 0 if and only if every test that is not to be left out passed, counts every test once and names those that failed. A test passes if the last lines of the program's output say PATCHED, and UNPATCHED is not taken for it; tests whose patching must fail pass if UNPATCHED is said. A test of unpatching passes if the program was seen patched before and is not any more.", "quantifier": "every machine, flavor, list of tests and every output of the programs", "why_tests_cant": "It is the judge of the tests: a mistake in it makes them pass, and the statuses are negated and compared with 0 and 1 several times over.", "anchors": ["tests/run_tests.sh: check_result", "tests/run_tests.sh: check_result_unpatch", "tests/run_tests.sh: check_result_startup", "tests/run_tests.sh: check_result_patchlevel", "tests/run_tests.sh: should_skip", "tests/run_tests.sh: test_one", "tests/run_tests.sh: wait_file", "tests/run_tests.sh: main"]}
{"id": "C159", "title": "The verdicts of the tests of kpatch_gensrc", "statement": "A case of the tests of kpatch_gensrc passes if and only if the lines with its key word come out as they went in, comments added apart; a case whose text has fewer than two such lines is left out. The script counts every file once and ends with 0 if and only if none failed.", "quantifier": "every output of the compiler and of kpatch_gensrc, every diff that tells the truth", "why_tests_cant": "It judges the tests; what it says of outputs that are missing or differ elsewhere is seen only when kpatch_gensrc is broken.", "anchors": ["tests/gcc_ge8_gensrc/run_gcc_ge8_gensrc_test.sh"]}
{"id": "C160", "title": "The arrays of lines grow in time", "statement": "kpatch_gensrc reads a file of any number of lines, and takes lines apart into any number of statements, without storing outside its arrays and without losing a line when they grow; each statement keeps the number of its line. It ends with an error only for a line of more than 1000 statements.", "quantifier": "every number of lines, every number of statements in each", "why_tests_cant": "The sizes double at certain numbers of lines only, and the arrays grow once for a line however many statements it has.", "anchors": ["src/kpatch_io.c: kp_realloc", "src/kpatch_io.c: read_file", "src/arch/x86/arch_parse.c: init_multilines"]}
{"id": "C161", "title": "The descriptions of sections are freed once", "statement": "Whatever section directives the two files given to kpatch_gensrc have, no description of a section is used after it was freed, none is freed twice, the predefined ones are never freed, and at the end each one that was made has been freed.", "quantifier": "every pair of files, every sequence of section directives in them", "why_tests_cant": "A use of freed memory or a second free shows only for certain sequences of directives, and often not at all; the tree of names outlives the files whose sections it holds.", "anchors": ["src/kpatch_parse.c: parse_section", "src/kpatch_parse.c: init_sections", "src/kpatch_parse.c: free_sections", "src/kpatch_gensrc.c: main"]}
{"id": "C162", "title": "The streams of kpatch_gensrc", "statement": "Whatever options kpatch_gensrc is given, in whatever order, it does not use or close a stream after it has closed it, and when it comes to its end every file it opened is closed.", "quantifier": "every list of options, with - , files and files that cannot be opened as names", "why_tests_cant": "It depends on the order and number of the options -i and -o; the use of a closed stream need not show.", "anchors": ["src/kpatch_io.c: read_file", "src/kpatch_io.c: create_file", "src/kpatch_io.c: close_file", "src/kpatch_gensrc.c: main"]}
