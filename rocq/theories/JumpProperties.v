(** C08-C11: the bytes written at a patched function's entry make the processor
    continue at the replacement function.  [x86_exec] etc. (JumpSpec.v) are the
    instruction set semantics, [x86_code] etc. (JumpModel.v) the bytes written by
    the tool.  [sext 64 (s - d)] is the signed distance from [d] to [s]. *)
From Verif Require Import Base JumpSpec JumpModel JumpProofs.

(** C08.  On x86-64 the written jump goes to the new function exactly if the
    distance (from the end of the jump) fits 32 signed bits. *)
Theorem C08_x86_jump_reaches_iff_in_range : forall daddr saddr,
  addr_ok daddr -> addr_ok saddr ->
  (x86_exec daddr (x86_code daddr saddr) = Some saddr <->
   - 2 ^ 31 <= sext 64 (saddr - daddr - 5) < 2 ^ 31).
Proof. exact x86_jump_iff. Qed.
Print Assumptions C08_x86_jump_reaches_iff_in_range.

Example C08_hyps : addr_ok 0x7f1234567890 /\ addr_ok 0x7f1274567890 /\
  x86_exec 0x7f1234567890 (x86_code 0x7f1234567890 0x7f1274567890) = Some 0x7f1274567890 /\
  x86_exec 0x7f1234567890 (x86_code 0x7f1234567890 0x400000) <> Some 0x400000.
Proof. unfold addr_ok. repeat split; try lia. vm_compute. discriminate. Qed.

(** C08, the jump occupies exactly the bytes the tool reserves for it. *)
Theorem C08_x86_jump_size : forall daddr saddr, zlen (x86_code daddr saddr) = a_hunk x86.
Proof. exact code_length_x86. Qed.
Print Assumptions C08_x86_jump_size.

(** C09.  AArch64: word-aligned distance within +-128 MiB, and only then. *)
Theorem C09_aarch64_branch_reaches_iff_in_range : forall daddr saddr,
  addr_ok daddr -> addr_ok saddr ->
  (a64_exec daddr (a64_code daddr saddr) = Some saddr <->
   (saddr - daddr) mod 4 = 0 /\ - 2 ^ 27 <= sext 64 (saddr - daddr) < 2 ^ 27).
Proof. exact a64_jump_iff. Qed.
Print Assumptions C09_aarch64_branch_reaches_iff_in_range.

Theorem C09_aarch64_branch_size : forall daddr saddr, zlen (a64_code daddr saddr) = a_hunk aarch64.
Proof. exact code_length_a64. Qed.
Print Assumptions C09_aarch64_branch_size.

Example C09_hyps : addr_ok 0xffff8000 /\ addr_ok 0xfffe1000 /\
  a64_exec 0xffff8000 (a64_code 0xffff8000 0xfffe1000) = Some 0xfffe1000.
Proof. unfold addr_ok. repeat split; lia. Qed.

(** C10.  RISC-V: the auipc/jalr pair.  The full claim -- every even target at a
    distance of a signed 32-bit offset -- fails for the top 2 KiB of the range;
    exact condition below, counterexample in [C10_riscv_jump_refuted]. *)
Theorem C10_riscv_jump_reaches_iff_in_range_partial : forall daddr saddr,
  addr_ok daddr -> addr_ok saddr ->
  (rv_exec daddr (rv_code daddr saddr) = Some saddr <->
   saddr mod 2 = 0 /\ - 2 ^ 31 - 2 ^ 11 <= sext 64 (saddr - daddr) < 2 ^ 31 - 2 ^ 11).
Proof. exact rv_jump_iff. Qed.
Print Assumptions C10_riscv_jump_reaches_iff_in_range_partial.

Theorem C10_riscv_jump_size : forall daddr saddr, zlen (rv_code daddr saddr) = a_hunk riscv64.
Proof. exact code_length_rv. Qed.
Print Assumptions C10_riscv_jump_size.

(** A distance that fits the [int offset] the code computes, yet the jump goes
    4 GiB away from the replacement. *)
Theorem C10_riscv_jump_refuted : exists daddr saddr,
  addr_ok daddr /\ addr_ok saddr /\ saddr mod 2 = 0 /\
  - 2 ^ 31 <= sext 64 (saddr - daddr) < 2 ^ 31 /\
  rv_exec daddr (rv_code daddr saddr) = Some (saddr - 2 ^ 32).
Proof.
  exists 0x2000000000, (0x2000000000 + 2 ^ 31 - 2). unfold addr_ok.
  repeat split; try lia; vm_compute; try reflexivity; try discriminate.
Qed.
Print Assumptions C10_riscv_jump_refuted.

(** C11.  LoongArch: either the branch reaches the replacement, or patching the
    function is refused, and in range (with the last word of the forward range
    excluded) it is never refused. *)
Theorem C11_loongarch_branch_reaches_or_refused : forall daddr saddr,
  addr_ok daddr -> addr_ok saddr -> (saddr - daddr) mod 4 = 0 ->
  match la_code daddr saddr with
  | Some code => la_exec daddr code = Some saddr
  | None => ~ (- 2 ^ 27 <= sext 64 (saddr - daddr) < 2 ^ 27 - 4)
  end.
Proof. exact la_jump. Qed.
Print Assumptions C11_loongarch_branch_reaches_or_refused.

Theorem C11_loongarch_branch_size : forall daddr saddr code,
  la_code daddr saddr = Some code -> zlen code = a_hunk loongarch64.
Proof. exact code_length_la. Qed.
Print Assumptions C11_loongarch_branch_size.

(** The refusal test is off by one: a distance the instruction can encode. *)
Theorem C11_loongarch_encodable_distance_refused_refuted : exists daddr saddr code,
  addr_ok daddr /\ addr_ok saddr /\ (saddr - daddr) mod 4 = 0 /\
  zlen code = 4 /\ la_exec daddr code = Some saddr /\ la_code daddr saddr = None.
Proof.
  exists 0x120000000, (0x120000000 + 2 ^ 27 - 4), [0xff; 0xfd; 0xff; 0x53]. unfold addr_ok.
  repeat split; try lia; reflexivity.
Qed.
Print Assumptions C11_loongarch_encodable_distance_refused_refuted.

Example C11_hyps : addr_ok 0x120000000 /\ addr_ok 0x120100000 /\
  (0x120100000 - 0x120000000) mod 4 = 0 /\
  (exists code, la_code 0x120000000 0x120100000 = Some code) /\
  la_code 0x120000000 0x140000000 = None.
Proof. unfold addr_ok. repeat split; try lia. eexists; reflexivity. Qed.
