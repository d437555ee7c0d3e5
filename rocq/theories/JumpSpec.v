(** What the processors do with the bytes written at a patched function's entry.
    Written from the instruction set manuals; knows nothing about libcareplus. *)
From Verif Require Import Base.

(** Bits [hi..lo] of a word. *)
Definition bits (w hi lo : Z) : Z := (w / 2 ^ lo) mod 2 ^ (hi - lo + 1).

(** Intel SDM, JMP rel32: opcode E9, 32-bit signed displacement relative to the
    next instruction (pc + 5); the result is a 64-bit address. *)
Definition x86_exec (pc : Z) (code : list Z) : option Z :=
  match code with
  | [op; d0; d1; d2; d3] =>
      if op =? 0xE9 then Some (u64 (pc + 5 + sext 32 (le_val [d0; d1; d2; d3])))
      else None
  | _ => None
  end.

(** Arm ARM, B: bits 31..26 = 000101, imm26; target = pc + sign_extend(imm26:00). *)
Definition a64_exec (pc : Z) (code : list Z) : option Z :=
  if zlen code =? 4 then
    let w := le_val code in
    if bits w 31 26 =? 5 then Some (u64 (pc + 4 * sext 26 (bits w 25 0))) else None
  else None.

(** RISC-V unprivileged ISA: AUIPC rd, imm (opcode 0010111) puts
    pc + sign_extend(imm[31:12]:0) in rd; JALR rd, imm(rs1) (opcode 1100111,
    funct3 000) jumps to (rs1 + sign_extend(imm)) with bit 0 cleared.
    The pair is a plain jump when jalr's rs1 is auipc's rd and jalr's rd is x0. *)
Definition rv_exec (pc : Z) (code : list Z) : option Z :=
  match slice code 0 4, slice code 4 4 with
  | Some c0, Some c1 =>
      let w0 := le_val c0 in let w1 := le_val c1 in
      if (zlen code =? 8) && (bits w0 6 0 =? 0x17) && (bits w1 6 0 =? 0x67)
         && (bits w1 14 12 =? 0) && (bits w1 11 7 =? 0)
         && (bits w1 19 15 =? bits w0 11 7) && negb (bits w0 11 7 =? 0)
      then
        let t := u64 (pc + sext 32 (bits w0 31 12 * 2 ^ 12)) in
        Some (2 * (u64 (t + sext 12 (bits w1 31 20)) / 2))
      else None
  | _, _ => None
  end.

(** LoongArch manual, B: bits 31..26 = 010100; offs26 = bits 9..0 : bits 25..10;
    target = pc + sign_extend(offs26:00). *)
Definition la_exec (pc : Z) (code : list Z) : option Z :=
  if zlen code =? 4 then
    let w := le_val code in
    if bits w 31 26 =? 0x14
    then Some (u64 (pc + 4 * sext 26 (bits w 9 0 * 2 ^ 16 + bits w 25 10)))
    else None
  else None.

Definition addr_ok (a : Z) : Prop := 0 <= a < 2 ^ 64.
