(** Applying the relocations of a patch, on the four architectures.
    The ELF content of a patch (from [kp->kpatch_offset] on) is a byte buffer;
    section headers, symbols and relocation entries are given decoded.
    Simplified: a relocation whose field overlaps the section headers, the
    symbol table or a relocation table does not change the decoded copies. *)
From Verif Require Import Base JumpModel.

(** An Elf64_Sym; type and bind are the halves of st_info. *)
Record sym := {
  y_name : list Z; y_value : Z; y_size : Z; y_shndx : Z; y_type : Z; y_bind : Z }.
(** An Elf64_Rela; r_sym and r_type are the halves of r_info, the addend is its
    64-bit pattern. *)
Record rela := { r_offset : Z; r_type : Z; r_sym : Z; r_addend : Z }.

(** What kpatch_arch_apply_relocate_add knows about the section being relocated
    (arch/x86/arch_elf.c:28-37,51): file offset [t], size, address in the
    patient, whether it is .kpatch.info, and the object's load offset. *)
Record rctx := {
  t_off : Z; t_size : Z; t_addr : Z; t_info : bool; t_load : Z }.

(** Outcome of one relocation: go on, leave the loop with result 0, fail, or an
    access outside the buffers of the C program. *)
Inductive step (A : Type) := Next (a : A) | Stop (a : A) | Fail | Undef.
Arguments Next {A}. Arguments Stop {A}. Arguments Fail {A}. Arguments Undef {A}.

Inductive res (A : Type) := ROk (a : A) | RErr | RUndef.
Arguments ROk {A}. Arguments RErr {A}. Arguments RUndef {A}.

(** The constants of elf.h. *)
Definition SHN_UNDEF := 0.
Definition SHN_LORESERVE := 0xff00.
Definition STB_LOCAL := 0.
Definition STB_GLOBAL := 1.
Definition STB_WEAK := 2.
Definition STT_NOTYPE := 0.
Definition STT_OBJECT := 1.
Definition STT_FUNC := 2.
Definition STT_SECTION := 3.
Definition STT_FILE := 4.
Definition STT_TLS := 6.
Definition STT_GNU_IFUNC := 10.

(** kpatch_elf.c:484-488 *)
Definition is_undef_symbol (s : sym) : bool :=
  (y_shndx s =? SHN_UNDEF) || (SHN_LORESERVE <=? y_shndx s).

(** Store the low [n] bytes of [v] at [loc]. *)
Definition store (n : nat) (buf : list Z) (loc v : Z) : step (list Z) :=
  match splice buf loc (le_bytes n v) with Some b => Next b | None => Undef end.

(** Read the [n]-byte little-endian integer at [loc], go on with it. *)
Definition fetch {A} (n : Z) (buf : list Z) (loc : Z) (k : Z -> step A) : step A :=
  match slice buf loc n with Some bs => k (le_val bs) | None => Undef end.

(** [*(unsigned * )loc = f( *(unsigned * )loc)] *)
Definition update (n : nat) (buf : list Z) (loc : Z) (f : Z -> Z) : step (list Z) :=
  fetch (Z.of_nat n) buf loc (fun w => store n buf loc (f w)).

(** The loop over the entries of a relocation section; [prev] holds the entries
    already handled, latest first (arch/riscv64/arch_elf.c:38-60 looks back). *)
Fixpoint apply_loop {A} (one : list rela -> rela -> A -> step A)
    (prev : list rela) (rs : list rela) (a : A) : res A :=
  match rs with
  | [] => ROk a
  | r :: rs' =>
      match one prev r a with
      | Next a' => apply_loop one (r :: prev) rs' a'
      | Stop a' => ROk a'
      | Fail => RErr
      | Undef => RUndef
      end
  end.

(** ** x86-64 *)
Definition R_X86_64_NONE := 0.       Definition R_X86_64_64 := 1.
Definition R_X86_64_PC32 := 2.       Definition R_X86_64_PLT32 := 4.
Definition R_X86_64_GOTPCREL := 9.   Definition R_X86_64_32 := 10.
Definition R_X86_64_32S := 11.       Definition R_X86_64_TPOFF64 := 18.
Definition R_X86_64_GOTTPOFF := 22.  Definition R_X86_64_TPOFF32 := 23.
Definition R_X86_64_GOTPCRELX := 41. Definition R_X86_64_REX_GOTPCRELX := 42.

(** arch/x86/arch_elf.c:53-117, the body of the loop. *)
Definition x86_reloc (c : rctx) (syms : list sym)
    (prev : list rela) (r : rela) (buf : list Z) : step (list Z) :=
  if t_size c <=? r_offset r then Fail
  else
    let loc := t_off c + r_offset r in
    let loc2 := u64 (t_addr c + r_offset r) in
    match nth_error syms (Z.to_nat (r_sym r)) with
    | None => Undef
    | Some s =>
        let val := u64 (y_value s + r_addend r) in
        let val := if t_info c && is_undef_symbol s then y_size s else val in
        let ty := r_type r in
        if ty =? R_X86_64_NONE then Next buf
        else if ty =? R_X86_64_64 then store 8 buf loc val
        else if ty =? R_X86_64_32 then store 4 buf loc val
        else if ty =? R_X86_64_32S then store 4 buf loc val
        else if (ty =? R_X86_64_GOTTPOFF) || (ty =? R_X86_64_GOTPCREL)
                || (ty =? R_X86_64_REX_GOTPCRELX) || (ty =? R_X86_64_GOTPCRELX) then
          let val :=
            if is_undef_symbol s then u64 (val + 8)
            else if y_type s =? STT_TLS then u64 (r_addend r + t_load c - 4)
            else val in
          store 4 buf loc (u64 (val - loc2))
        else if ty =? R_X86_64_PC32 then store 4 buf loc (u64 (val - loc2))
        else if (ty =? R_X86_64_TPOFF64) || (ty =? R_X86_64_TPOFF32) then Next buf
        else Fail
    end.

(** ** AArch64 *)
Definition R_AARCH64_NONE := 0.                   Definition R_AARCH64_ABS64 := 257.
Definition R_AARCH64_ADR_PREL_PG_HI21 := 275.     Definition R_AARCH64_ADD_ABS_LO12_NC := 277.
Definition R_AARCH64_LDST8_ABS_LO12_NC := 278.    Definition R_AARCH64_JUMP26 := 282.
Definition R_AARCH64_CALL26 := 283.               Definition R_AARCH64_LDST32_ABS_LO12_NC := 285.
Definition R_AARCH64_LDST64_ABS_LO12_NC := 286.   Definition R_AARCH64_ADR_GOT_PAGE := 311.
Definition R_AARCH64_LD64_GOT_LO12_NC := 312.
Definition R_AARCH64_TLSIE_ADR_GOTTPREL_PAGE21 := 541.
Definition R_AARCH64_TLSIE_LD64_GOTTPREL_LO12_NC := 542.

(** arch/aarch64/arch_elf.c:53-56,87-90,98-101: ADRP; [val] is a page difference. *)
Definition set_adrp (w val : Z) : Z :=
  let immLo := u32 (Z.shiftl (Z.land val 0x3) 29) in
  let immHi := u32 (Z.shiftl (Z.land val 0x1FFFFC) 3) in
  let mask := Z.lor (Z.shiftl 0x3 29) (Z.shiftl 0x1FFFFC 3) in
  Z.lor (Z.lor (Z.land w (u32 (Z.lnot mask))) immLo) immHi.

(** arch/aarch64/arch_elf.c:66-69,124-127: bits 21..10 become [val & 0xfff]. *)
Definition set_imm12 (w val : Z) : Z :=
  let mask := Z.shiftl 0xfff 10 in
  Z.lor (Z.land w (u32 (Z.lnot mask))) (u32 (Z.shiftl (Z.land val 0xfff) 10)).

(** arch/aarch64/arch_elf.c:116-119,143-145,151-153,159-161: bits 21..10 become
    [(val & 0xfff) >> 3]. *)
Definition set_imm12_s3 (w val : Z) : Z :=
  let val := u64 (Z.shiftl (Z.shiftr (Z.land val 0xfff) 3) 10) in
  u32 (Z.lor (Z.land w (u32 (Z.lnot (Z.shiftl 0xfff 10)))) val).

(** arch/aarch64/arch_elf.c:76-79: BL; [val] is a byte difference. *)
Definition set_call26 (w val : Z) : Z :=
  let mask := 0x03FFFFFF in
  Z.lor (Z.land w (u32 (Z.lnot mask))) (Z.land (Z.shiftr val 2) mask).

(** arch/aarch64/arch_elf.c:134-137: B; [val] is a word difference.
    [0x3f << 26] overflows [int]; taken as the bit pattern gcc gives it. *)
Definition set_jump26 (w val : Z) : Z :=
  let val := Z.land val (u64 (Z.lnot (s32 (Z.shiftl 0x3f 26)))) in
  u32 (Z.lor (Z.land w (u32 (Z.shiftl 0x3f 26))) val).

(** arch/aarch64/arch_elf.c:122-127: LDR becomes ADD with the given immediate. *)
Definition set_got_add (w val : Z) : Z :=
  let w := Z.land w (u32 (Z.lnot (Z.shiftl 0x3ff 22))) in
  let w := Z.lor w (u32 (Z.shiftl 0x244 22)) in
  set_imm12 w val.

(** arch/aarch64/arch_elf.c:52,86,97: [(val >> 12) - (loc2 >> 12)] *)
Definition page_diff (val loc2 : Z) : Z := u64 (Z.shiftr val 12 - Z.shiftr loc2 12).

(** arch/aarch64/arch_elf.c:38-170 *)
Definition a64_apply (r : rela) (s : sym) (buf : list Z) (loc loc2 val : Z) : step (list Z) :=
  let ty := r_type r in
  if (ty =? R_AARCH64_NONE) || (ty =? R_AARCH64_TLSIE_LD64_GOTTPREL_LO12_NC) then Next buf
  else if (ty =? R_AARCH64_TLSIE_ADR_GOTTPREL_PAGE21) || (ty =? R_AARCH64_ADR_PREL_PG_HI21)
          || (ty =? R_AARCH64_ADR_GOT_PAGE) then
    update 4 buf loc (fun w => set_adrp w (page_diff val loc2))
  else if ty =? R_AARCH64_ABS64 then store 8 buf loc val
  else if ty =? R_AARCH64_ADD_ABS_LO12_NC then update 4 buf loc (fun w => set_imm12 w val)
  else if ty =? R_AARCH64_CALL26 then
    update 4 buf loc (fun w => set_call26 w (u64 (val - loc2)))
  else if ty =? R_AARCH64_LD64_GOT_LO12_NC then
    if (y_type s =? STT_OBJECT) && (y_shndx s =? SHN_UNDEF) && (y_bind s =? STB_GLOBAL)
    then update 4 buf loc (fun w => set_imm12_s3 w (u64 (val + 8)))
    else update 4 buf loc (fun w => set_got_add w val)
  else if ty =? R_AARCH64_JUMP26 then
    update 4 buf loc (fun w => set_jump26 w (u64 (Z.shiftr val 2 - Z.shiftr loc2 2)))
  else if (ty =? R_AARCH64_LDST32_ABS_LO12_NC) || (ty =? R_AARCH64_LDST64_ABS_LO12_NC)
          || (ty =? R_AARCH64_LDST8_ABS_LO12_NC) then
    update 4 buf loc (fun w => set_imm12_s3 w val)
  else Fail.

(** arch/aarch64/arch_elf.c:199-237, the body of the loop.  A relocation against
    a local TLS symbol executes [return 0]. *)
Definition a64_reloc (c : rctx) (syms : list sym)
    (prev : list rela) (r : rela) (buf : list Z) : step (list Z) :=
  if t_size c <=? r_offset r then Fail
  else
    let loc := t_off c + r_offset r in
    let loc2 := u64 (t_addr c + r_offset r) in
    match nth_error syms (Z.to_nat (r_sym r)) with
    | None => Undef
    | Some s =>
        let val := u64 (y_value s + r_addend r) in
        let val := if t_info c && is_undef_symbol s then y_size s else val in
        if y_type s =? STT_TLS then
          if y_bind s =? STB_LOCAL then Stop buf
          else a64_apply r s buf loc loc2 (u64 (r_addend r + t_load c))
        else a64_apply r s buf loc loc2 val
    end.

(** ** RISC-V *)
Definition R_RISCV_NONE := 0.          Definition R_RISCV_32 := 1.
Definition R_RISCV_64 := 2.            Definition R_RISCV_BRANCH := 16.
Definition R_RISCV_JAL := 17.          Definition R_RISCV_CALL := 18.
Definition R_RISCV_CALL_PLT := 19.     Definition R_RISCV_TLS_GOT_HI20 := 21.
Definition R_RISCV_PCREL_HI20 := 23.   Definition R_RISCV_PCREL_LO12_I := 24.
Definition R_RISCV_PCREL_LO12_S := 25. Definition R_RISCV_HI20 := 26.
Definition R_RISCV_LO12_I := 27.       Definition R_RISCV_LO12_S := 28.
Definition R_RISCV_TPREL_HI20 := 29.   Definition R_RISCV_TPREL_LO12_I := 30.
Definition R_RISCV_TPREL_LO12_S := 31. Definition R_RISCV_TPREL_ADD := 32.
Definition R_RISCV_ADD32 := 35.        Definition R_RISCV_ADD64 := 36.
Definition R_RISCV_SUB32 := 39.        Definition R_RISCV_SUB64 := 40.
Definition R_RISCV_RVC_BRANCH := 44.   Definition R_RISCV_RVC_JUMP := 45.
Definition R_RISCV_RVC_LUI := 46.      Definition R_RISCV_GPREL_I := 47.
Definition R_RISCV_GPREL_S := 48.      Definition R_RISCV_TPREL_I := 49.
Definition R_RISCV_TPREL_S := 50.      Definition R_RISCV_RELAX := 51.
Definition R_RISCV_SET32 := 56.        Definition R_RISCV_32_PCREL := 57.

(** arch/riscv64/riscv64_imm.h:23-37 *)
Definition set_stype_imm (ins imm : Z) : Z :=
  u32 (Z.lor (Z.lor (Z.land ins 0x1fff07f) (u64 (Z.shiftl (Z.land imm 0xfe0) (31 - 11))))
             (u64 (Z.shiftl (Z.land imm 0x1f) (11 - 4)))).

(** arch/riscv64/riscv64_imm.h:39-51 *)
Definition set_jtype_imm (ins imm : Z) : Z :=
  u32 (Z.lor (Z.lor (Z.lor (Z.lor (Z.land ins 0xfff)
         (u64 (Z.shiftl (Z.land imm 0x100000) (31 - 20))))
         (Z.land imm 0xff000))
         (u64 (Z.shiftl (Z.land imm 0x800) (20 - 11))))
         (u64 (Z.shiftl (Z.land imm 0x7fe) (30 - 10)))).

(** arch/riscv64/riscv64_imm.h:73-91 *)
Definition set_cjtype_imm (ins imm : Z) : Z :=
  u16 (Z.lor (Z.lor (Z.lor (Z.lor (Z.lor (Z.lor (Z.lor (Z.lor
         (Z.land ins 0xe003)
         (Z.shiftl (Z.land imm 0x800) (12 - 11)))
         (Z.shiftr (Z.land imm 0x400) (10 - 8)))
         (Z.shiftl (Z.land imm 0x300) (10 - 9)))
         (Z.shiftr (Z.land imm 0x80) (7 - 6)))
         (Z.shiftl (Z.land imm 0x40) (7 - 6)))
         (Z.shiftr (Z.land imm 0x20) (5 - 2)))
         (Z.shiftl (Z.land imm 0x10) (11 - 4)))
         (Z.shiftl (Z.land imm 0xe) (5 - 3))).

(** arch/riscv64/riscv64_imm.h:94-109 *)
Definition set_citype_imm (ins imm : Z) : Z :=
  u16 (Z.lor (Z.lor (Z.land ins 0xef83)
         (Z.shiftr (Z.land imm 0x20000) (17 - 12)))
         (Z.shiftr (Z.land imm 0x1f000) (16 - 6))).

(** The relocation loop also changes symbol values and the jump table: its state
    is the ELF content, the symbols and the bytes of [*o->jmp_table]. *)
Record rvst := { v_buf : list Z; v_syms : list sym; v_tab : list Z }.

(** The object, as far as adjust_got_jump_table needs it: address of the jump
    table in the patient, [o->kpta + jmp_offset], and PTRACE_PEEKTEXT. *)
Record rvenv := { e_jmp : Z; e_peek : Z -> option Z }.

Definition with_value (s : sym) (v : Z) : sym :=
  {| y_name := y_name s; y_value := v; y_size := y_size s; y_shndx := y_shndx s;
     y_type := y_type s; y_bind := y_bind s |}.
Definition upd_nth {A} (n : nat) (l : list A) (a : A) : list A :=
  firstn n l ++ match skipn n l with [] => [] | _ :: r => a :: r end.

(** arch/riscv64/arch_elf.c:74-101.  [Next (false, _)] is the result 0,
    [Next (true, _)] the result 1, [Fail] the result -1. *)
Definition rv_adjust (e : rvenv) (r : rela) (s : sym) (st : rvst) : step (bool * rvst) :=
  let rt := r_type r in
  if negb (is_undef_symbol s) || negb (y_type s =? STT_OBJECT)
     || (negb (rt =? R_RISCV_HI20) && negb (rt =? R_RISCV_TLS_GOT_HI20)
         && negb (rt =? R_RISCV_RVC_LUI))
  then Next (false, st)
  else
    match e_peek e (y_size s) with
    | None => Fail
    | Some w =>
        let value := u64 (y_value s + 16) in
        match splice (v_tab st) (value - e_jmp e) (le_bytes 8 w) with
        | None => Undef
        | Some tab =>
            Next (true, {| v_buf := v_buf st;
                           v_syms := upd_nth (Z.to_nat (r_sym r)) (v_syms st)
                                       (with_value s value);
                           v_tab := tab |})
        end
    end.

(** arch/riscv64/arch_elf.c:38-60; [prev]: the entries before, latest first.
    [None]: a symbol index outside the table. *)
Fixpoint rv_find_hi (prev : list rela) (syms : list sym) (load v : Z) : option Z :=
  match prev with
  | [] => Some 0
  | r :: prev' =>
      if (r_offset r =? v) && (r_type r =? R_RISCV_PCREL_HI20) then
        match nth_error syms (Z.to_nat (r_sym r)) with
        | None => None
        | Some s => Some (y_value s)
        end
      else if (r_offset r =? v) && (r_type r =? R_RISCV_TLS_GOT_HI20) then
        match nth_error syms (Z.to_nat (r_sym r)) with
        | None => None
        | Some s => if is_undef_symbol s then Some (y_value s)
                    else Some (u64 (r_addend r + load))
        end
      else rv_find_hi prev' syms load v
  end.

(** The relocation types that are accepted and ignored,
    arch/riscv64/arch_elf.c:159-188. *)
Definition rv_ignored (ty : Z) : bool :=
  existsb (Z.eqb ty)
    [R_RISCV_NONE; R_RISCV_BRANCH; R_RISCV_RVC_BRANCH; R_RISCV_TPREL_HI20;
     R_RISCV_TPREL_LO12_I; R_RISCV_TPREL_LO12_S; R_RISCV_TPREL_ADD; R_RISCV_TPREL_I;
     R_RISCV_TPREL_S; R_RISCV_GPREL_I; R_RISCV_GPREL_S; R_RISCV_ADD32; R_RISCV_ADD64;
     R_RISCV_SUB32; R_RISCV_SUB64; R_RISCV_RELAX].

(** [(val >> k) && ((val & hi) != hi)] is false: the value is accepted. *)
Definition rv_range (k hi val : Z) : bool :=
  (Z.shiftr val k =? 0) || (Z.land val hi =? hi).

(** [(long)val == (long)(int)val] *)
Definition fits_int (val : Z) : bool := s64 val =? s32 val.

(** arch/riscv64/arch_elf.c:158-276: the switch. *)
Definition rv_apply (c : rctx) (prev : list rela) (r : rela) (s : sym) (syms : list sym)
    (buf : list Z) (loc loc2 val : Z) : step (list Z) :=
  let ty := r_type r in
  let lo12 (k : Z -> step (list Z)) :=
    match rv_find_hi prev syms (t_load c) (u64 (y_value s - t_addr c)) with
    | None => Undef
    | Some hi => if hi =? 0 then Fail else k (u64 (hi - y_value s))
    end in
  let set32 val := if fits_int val then store 4 buf loc val else Fail in
  let hi20 val :=
    if fits_int val then update 4 buf loc (fun w => set_utype_imm w val) else Fail in
  if rv_ignored ty then Next buf
  else if ty =? R_RISCV_32_PCREL then set32 (u64 (val - loc2))
  else if (ty =? R_RISCV_32) || (ty =? R_RISCV_SET32) then set32 val
  else if ty =? R_RISCV_64 then store 8 buf loc val
  else if ty =? R_RISCV_JAL then
    let val := u64 (val - loc2) in
    if rv_range 21 0xfffffffffff00000 val
    then update 4 buf loc (fun w => set_jtype_imm w val) else Fail
  else if (ty =? R_RISCV_CALL) || (ty =? R_RISCV_CALL_PLT) then
    let val := u64 (val - loc2) in
    if fits_int val then
      match update 4 buf loc (fun w => set_utype_imm w val) with
      | Next buf' => update 4 buf' (loc + 4) (fun w => set_itype_imm w val)
      | o => o
      end
    else Fail
  else if ty =? R_RISCV_PCREL_HI20 then hi20 (u64 (val - loc2))
  else if ty =? R_RISCV_HI20 then hi20 val
  else if ty =? R_RISCV_PCREL_LO12_I then
    lo12 (fun val => update 4 buf loc (fun w => set_itype_imm w val))
  else if ty =? R_RISCV_LO12_I then update 4 buf loc (fun w => set_itype_imm w val)
  else if ty =? R_RISCV_PCREL_LO12_S then
    lo12 (fun val => update 4 buf loc (fun w => set_stype_imm w val))
  else if ty =? R_RISCV_LO12_S then update 4 buf loc (fun w => set_stype_imm w val)
  else if ty =? R_RISCV_RVC_JUMP then
    if rv_range 12 0xfffffffffffff800 val
    then update 2 buf loc (fun w => set_cjtype_imm w val) else Fail
  else if ty =? R_RISCV_RVC_LUI then
    if rv_range 18 0xfffffffffffe0000 val
    then update 2 buf loc (fun w => set_citype_imm w val) else Fail
  else if ty =? R_RISCV_TLS_GOT_HI20 then
    let val := if negb (is_undef_symbol s) && (y_type s =? STT_TLS)
               then u64 (r_addend r + t_load c) else val in
    update 4 buf loc (fun w => set_utype_imm w (u64 (val - loc2)))
  else Fail.

(** arch/riscv64/arch_elf.c:133-277, the body of the loop. *)
Definition rv_reloc (e : rvenv) (c : rctx)
    (prev : list rela) (r : rela) (st : rvst) : step rvst :=
  if t_size c <=? r_offset r then Fail
  else
    let loc := t_off c + r_offset r in
    let loc2 := u64 (t_addr c + r_offset r) in
    match nth_error (v_syms st) (Z.to_nat (r_sym r)) with
    | None => Undef
    | Some s0 =>
        match rv_adjust e r s0 st with
        | Fail => Fail
        | Undef => Undef
        | Stop (_, st) => Stop st
        | Next (adjusted, st) =>
            match nth_error (v_syms st) (Z.to_nat (r_sym r)) with
            | None => Undef
            | Some s =>
                let val := if adjusted : bool then y_value s
                           else u64 (y_value s + r_addend r) in
                match rv_apply c prev r s (v_syms st) (v_buf st) loc loc2 val with
                | Next buf => Next {| v_buf := buf; v_syms := v_syms st; v_tab := v_tab st |}
                | Stop buf => Stop {| v_buf := buf; v_syms := v_syms st; v_tab := v_tab st |}
                | Fail => Fail
                | Undef => Undef
                end
            end
        end
    end.

(** ** LoongArch *)
Definition R_LARCH_NONE := 0.           Definition R_LARCH_32 := 1.
Definition R_LARCH_64 := 2.             Definition R_LARCH_JUMP_SLOT := 5.
Definition R_LARCH_ADD32 := 50.         Definition R_LARCH_ADD64 := 51.
Definition R_LARCH_SUB32 := 55.         Definition R_LARCH_SUB64 := 56.
Definition R_LARCH_B16 := 64.           Definition R_LARCH_B21 := 65.
Definition R_LARCH_B26 := 66.           Definition R_LARCH_ABS_HI20 := 67.
Definition R_LARCH_ABS_LO12 := 68.      Definition R_LARCH_PCALA_HI20 := 71.
Definition R_LARCH_PCALA_LO12 := 72.    Definition R_LARCH_GOT_PC_HI20 := 75.
Definition R_LARCH_GOT_PC_LO12 := 76.   Definition R_LARCH_GOT_HI20 := 79.
Definition R_LARCH_GOT_LO12 := 80.      Definition R_LARCH_TLS_IE_PC_HI20 := 87.
Definition R_LARCH_TLS_IE_PC_LO12 := 88. Definition R_LARCH_TLS_IE_HI20 := 91.
Definition R_LARCH_TLS_IE_LO12 := 92.   Definition R_LARCH_TLS_LD_PC_HI20 := 95.
Definition R_LARCH_TLS_LD_HI20 := 96.   Definition R_LARCH_TLS_GD_PC_HI20 := 97.
Definition R_LARCH_TLS_GD_HI20 := 98.   Definition R_LARCH_RELAX := 100.
Definition R_LARCH_PCREL20_S2 := 103.   Definition R_LARCH_TLS_LD_PCREL20_S2 := 124.
Definition R_LARCH_TLS_GD_PCREL20_S2 := 125.

(** arch/loongarch64/loongarch64_imm.h:21-24 *)
Definition set_2ri12_imm (ins imm : Z) : Z :=
  Z.lor (Z.land ins (u32 (Z.lnot (Z.shiftl 0xFFF 10))))
        (u32 (Z.shiftl (Z.land imm 0xFFF) 10)).
(** arch/loongarch64/loongarch64_imm.h:33-36 *)
Definition set_2ri16_imm (ins imm : Z) : Z :=
  Z.lor (Z.land ins (u32 (Z.lnot (Z.shiftl 0xFFFF 10))))
        (u32 (Z.shiftl (Z.land imm 0xFFFF) 10)).
(** arch/loongarch64/loongarch64_imm.h:39-45 *)
Definition set_1ri21_imm (ins offset : Z) : Z :=
  let imm_val := Z.shiftr offset 2 in
  let imm_lo := u32 (Z.shiftl (u32 (Z.land imm_val 0xFFFF)) 10) in
  let imm_hi := Z.land (Z.shiftr (u32 imm_val) 16) 0x1F in
  Z.lor (Z.lor (Z.land ins (u32 (Z.lnot (Z.lor (Z.shiftl 0xFFFF 10) 0x1F)))) imm_lo) imm_hi.
(** arch/loongarch64/loongarch64_imm.h:48-54 *)
Definition set_i26_imm (ins offset : Z) : Z :=
  let imm_val := Z.shiftr offset 2 in
  let imm_lo := u32 (Z.shiftl (u32 (Z.land imm_val 0xFFFF)) 10) in
  let imm_hi := Z.land (Z.shiftr (u32 imm_val) 16) 0x3FF in
  Z.lor (Z.lor (Z.land ins (u32 (Z.lnot (Z.lor (Z.shiftl 0xFFFF 10) 0x3FF)))) imm_lo) imm_hi.
(** arch/loongarch64/loongarch64_imm.h:57-61 *)
Definition set_pcrel_imm (ins imm : Z) : Z :=
  Z.lor (Z.land ins (u32 (Z.lnot (Z.shiftl 0xFFFFF 5))))
        (u32 (Z.shiftl (Z.land (Z.shiftr imm 2) 0xFFFFF) 5)).

(** arch/loongarch64/arch_elf.c:32-64 *)
Definition la_adjust (c : rctx) (r : rela) (s : sym) : Z :=
  let ty := r_type r in
  if existsb (Z.eqb ty) [R_LARCH_GOT_PC_HI20; R_LARCH_GOT_PC_LO12; R_LARCH_GOT_HI20;
                         R_LARCH_GOT_LO12]
  then u64 (y_value s + r_addend r)
  else if ty =? R_LARCH_JUMP_SLOT then
    if y_shndx s =? SHN_UNDEF then
      if y_value s =? 0 then u64 (-1) else y_value s
    else 0
  else if existsb (Z.eqb ty)
       [R_LARCH_TLS_IE_PC_HI20; R_LARCH_TLS_IE_PC_LO12; R_LARCH_TLS_GD_PC_HI20;
        R_LARCH_TLS_GD_HI20; R_LARCH_TLS_GD_PCREL20_S2; R_LARCH_TLS_LD_PC_HI20;
        R_LARCH_TLS_LD_HI20; R_LARCH_TLS_LD_PCREL20_S2]
  then u64 (r_addend r + t_load c)
  else 0.

(** [off < -(1 << k) || off >= (1 << k)] is false, and [(off & 3) == 0]. *)
Definition la_range (k off : Z) : bool :=
  (- 2 ^ k <=? off) && (off <? 2 ^ k) && (Z.land off 0x3 =? 0).

(** arch/loongarch64/arch_elf.c:120-223: the switch.  Signed 32- and 64-bit
    additions are taken to wrap around. *)
Definition la_apply (r : rela) (buf : list Z) (loc loc2 val : Z) : step (list Z) :=
  let ty := r_type r in
  let off := s64 (u64 (val - loc2)) in
  if ty =? R_LARCH_32 then store 4 buf loc val
  else if ty =? R_LARCH_64 then store 8 buf loc val
  else if ty =? R_LARCH_ADD32 then update 4 buf loc (fun w => u32 (w + u32 val))
  else if ty =? R_LARCH_ADD64 then update 8 buf loc (fun w => u64 (w + val))
  else if ty =? R_LARCH_SUB32 then update 4 buf loc (fun w => u32 (w - u32 val))
  else if ty =? R_LARCH_SUB64 then update 8 buf loc (fun w => u64 (w - val))
  else if ty =? R_LARCH_ABS_HI20 then
    update 4 buf loc (fun w => set_pcrel_imm w (u32 (Z.shiftr val 12)))
  else if ty =? R_LARCH_PCALA_HI20 then
    let imm := u32 (Z.shiftr (u64 (Z.land (u64 (val + 0x800)) (u64 (Z.lnot 0xFFF))
                                   - Z.land loc2 (u64 (Z.lnot 0xFFF)))) 12) in
    update 4 buf loc (fun w => set_pcrel_imm w imm)
  else if (ty =? R_LARCH_ABS_LO12) || (ty =? R_LARCH_PCALA_LO12) then
    update 4 buf loc (fun w => set_2ri12_imm w (u32 val))
  else if ty =? R_LARCH_B16 then
    if la_range 17 off then update 4 buf loc (fun w => set_2ri16_imm w (u32 off)) else Fail
  else if ty =? R_LARCH_B21 then
    if la_range 22 off then update 4 buf loc (fun w => set_1ri21_imm w (s32 off)) else Fail
  else if ty =? R_LARCH_B26 then
    if la_range 27 off then update 4 buf loc (fun w => set_i26_imm w (s32 off)) else Fail
  else if ty =? R_LARCH_PCREL20_S2 then
    if la_range 21 off then update 4 buf loc (fun w => set_pcrel_imm w (u32 off)) else Fail
  else if (ty =? R_LARCH_GOT_PC_HI20) || (ty =? R_LARCH_TLS_IE_PC_HI20) then
    let imm := u32 (Z.shiftr (u64 (Z.land val (u64 (Z.lnot 0xFFF))
                                   - Z.land loc2 (u64 (Z.lnot 0xFFF)))) 12) in
    update 4 buf loc (fun w => set_pcrel_imm w imm)
  else if (ty =? R_LARCH_GOT_PC_LO12) || (ty =? R_LARCH_TLS_IE_PC_LO12) then
    update 4 buf loc (fun w => set_2ri12_imm w (Z.land val 0xFFF))
  else if (ty =? R_LARCH_GOT_HI20) || (ty =? R_LARCH_TLS_IE_HI20) then
    update 4 buf loc (fun w => set_pcrel_imm w (u32 (Z.shiftr (s32 val) 12)))
  else if (ty =? R_LARCH_GOT_LO12) || (ty =? R_LARCH_TLS_IE_LO12) then
    update 4 buf loc (fun w => set_2ri12_imm w (u32 val))
  else if (ty =? R_LARCH_RELAX) || (ty =? R_LARCH_NONE) then Next buf
  else Fail.

(** arch/loongarch64/arch_elf.c:95-224, the body of the loop. *)
Definition la_reloc (c : rctx) (syms : list sym)
    (prev : list rela) (r : rela) (buf : list Z) : step (list Z) :=
  if t_size c <=? r_offset r then Fail
  else
    let loc := t_off c + r_offset r in
    let loc2 := u64 (t_addr c + r_offset r) in
    match nth_error syms (Z.to_nat (r_sym r)) with
    | None => Undef
    | Some s =>
        let val := la_adjust c r s in
        if val =? u64 (-1) then Fail
        else
          let val := if val =? 1 then y_value s else u64 (y_value s + r_addend r) in
          la_apply r buf loc loc2 val
    end.

(** ** The sections of a patch *)
Definition SHT_NULL := 0.    Definition SHT_SYMTAB := 2.  Definition SHT_RELA := 4.
Definition SHT_NOBITS := 8.  Definition SHT_REL := 9.

Record shdr := {
  h_name : list Z; h_type : Z; h_addr : Z; h_offset : Z; h_size : Z;
  h_info : Z; h_relas : list rela }.

(** arch/x86/arch_elf.c:32-51 (the same in the other three): target section and
    its context; the loop's outcome 0 / -1.  [None] for the context: the index of
    the target section is not in the table. *)
Definition target_ctx (shdrs : list shdr) (load : Z) (relsec : shdr) : option rctx :=
  match nth_error shdrs (Z.to_nat (h_info relsec)) with
  | None => None
  | Some t => Some {| t_off := h_offset t; t_size := h_size t; t_addr := h_addr t;
                      t_info := list_eqb (h_name t)
                        [46;107;112;97;116;99;104;46;105;110;102;111] (* .kpatch.info *);
                      t_load := load |}
  end.

(** kpatch_elf.c:873-897.  [apply] is kpatch_arch_apply_relocate_add.  Line 886
    tests the type of section header 0 ([shdr], not [s]). *)
Fixpoint relocate_loop {A} (apply : shdr -> A -> res A) (sh0 : shdr)
    (ss : list shdr) (a : A) : res A :=
  match ss with
  | [] => ROk a
  | s :: ss' =>
      if h_type s =? SHT_RELA then
        match apply s a with
        | ROk a' => relocate_loop apply sh0 ss' a'
        | o => o
        end
      else if h_type sh0 =? SHT_REL then RErr
      else relocate_loop apply sh0 ss' a
  end.

Definition kpatch_relocate {A} (apply : shdr -> A -> res A) (shdrs : list shdr) (a : A)
    : res A :=
  match shdrs with
  | [] => ROk a
  | sh0 :: ss => relocate_loop apply sh0 ss a
  end.

(** kpatch_arch_apply_relocate_add for the three architectures whose loop only
    changes the ELF content.  [has_symtab]: a section of type SYMTAB exists; its
    symbols are [syms] (one symbol table, as in every relocatable file). *)
Definition apply_relocate_add
    (one : rctx -> list sym -> list rela -> rela -> list Z -> step (list Z))
    (shdrs : list shdr) (syms : list sym) (load : Z) (relsec : shdr) (buf : list Z)
    : res (list Z) :=
  if existsb (fun s => h_type s =? SHT_SYMTAB) (tl shdrs) then
    match target_ctx shdrs load relsec with
    | None => RUndef
    | Some c => apply_loop (one c syms) [] (h_relas relsec) buf
    end
  else RErr.
