(** The code bytes that patch_apply_hunk writes, per architecture. *)
From Verif Require Import Base.

(** An architecture, as far as patching a function entry is concerned.
    [a_hunk]: HUNK_SIZE.  [a_pre daddr]: check made before the original code is
    saved.  [a_code daddr saddr]: the bytes written at [daddr], [None] when the
    function returns -1 after the original code has been saved. *)
Record arch := {
  a_hunk : Z;
  a_pre : Z -> bool;
  a_code : Z -> Z -> option (list Z) }.

(** arch/x86/arch_patch.c:37,42,59.
    [code] is 0xe9 followed by the 32-bit word
    [(unsigned int)(info->saddr - info->daddr - 5)]. *)
Definition x86_code (daddr saddr : Z) : list Z :=
  0xe9 :: le_bytes 4 (u32 (u64 (saddr - daddr - 5))).

(** arch/aarch64/arch_patch.c:31,36,54-56.
    The word [(unsigned int)(saddr - daddr) / 4], then
    [code[3] &= 0x3; code[3] |= 0x14]. *)
Definition a64_code (daddr saddr : Z) : list Z :=
  match le_bytes 4 (u32 (u64 (saddr - daddr)) / 4) with
  | [c0; c1; c2; c3] => [c0; c1; c2; Z.lor (Z.land c3 0x3) 0x14]
  | l => l
  end.

(** arch/riscv64/riscv64_imm.h:9-15 *)
Definition set_utype_imm (ins imm : Z) : Z :=
  let imm' := u64 (imm + u64 (Z.shiftl (Z.land imm 0x800) 1)) in
  u32 (Z.lor (Z.land imm' 0xfffff000) (Z.land ins 0xfff)).

(** arch/riscv64/riscv64_imm.h:17-21 *)
Definition set_itype_imm (ins imm : Z) : Z :=
  u32 (Z.lor (u64 (Z.shiftl (Z.land imm 0xfff) 20)) (Z.land ins 0xfffff)).

(** arch/riscv64/arch_patch.c:33,54-56.  [int offset = saddr - daddr] truncates
    to 32 bits; it is sign-extended again when passed as [unsigned long]. *)
Definition rv_code (daddr saddr : Z) : list Z :=
  let offset := u64 (s32 (u64 (saddr - daddr))) in
  le_bytes 4 (set_utype_imm 0xf97 offset) ++ le_bytes 4 (set_itype_imm 0xf8067 offset).

(** arch/loongarch64/arch_patch.c:39-42: unaligned functions are refused. *)
Definition la_pre (daddr : Z) : bool := Z.land daddr 0x3 =? 0.

(** arch/loongarch64/arch_patch.c:53-64.  The range check comes after the
    original code has been copied to the undo area. *)
Definition la_code (daddr saddr : Z) : option (list Z) :=
  let byte_offset := s64 (u64 (saddr - daddr)) in
  let imm26 := Z.shiftr byte_offset 2 in
  if (imm26 <? - 2 ^ 25) || (2 ^ 25 - 1 <=? imm26) then None
  else
    let l16 := u32 (Z.land imm26 0xFFFF) in
    let h10 := u32 (Z.land (Z.shiftr imm26 16) 0x3FF) in
    Some (le_bytes 4 (Z.lor (Z.lor 0x50000000 (u32 (Z.shiftl l16 10))) h10)).

Definition x86 : arch :=
  {| a_hunk := 5; a_pre := fun _ => true; a_code := fun d s => Some (x86_code d s) |}.
Definition aarch64 : arch :=
  {| a_hunk := 4; a_pre := fun _ => true; a_code := fun d s => Some (a64_code d s) |}.
Definition riscv64 : arch :=
  {| a_hunk := 8; a_pre := fun _ => true; a_code := fun d s => Some (rv_code d s) |}.
Definition loongarch64 : arch :=
  {| a_hunk := 4; a_pre := la_pre; a_code := la_code |}.
