(** What the ELF format, the C library and the processors promise; nothing about
    how libcareplus works. *)
From Coq Require Import Permutation Sorted.
From Verif Require Import Base RelocModel ElfModel.

(** ** qsort(3): for a comparison that orders the elements of the array, the result
    is a sorted rearrangement.  How equal elements end up is not specified. *)
Definition preorder_on {A} (cmp : A -> A -> Z) (l : list A) : Prop :=
  (forall a b, In a l -> In b l -> (cmp a b <= 0 \/ cmp b a <= 0)) /\
  (forall a b c, In a l -> In b l -> In c l ->
     cmp a b <= 0 -> cmp b c <= 0 -> cmp a c <= 0).
Definition qsort_ok (qs : sorter) : Prop :=
  forall A (cmp : A -> A -> Z) l, preorder_on cmp l ->
    Permutation l (qs A cmp l) /\ StronglySorted (fun a b => cmp a b <= 0) (qs A cmp l).

(** ** Memory holding given bytes *)
Definition holds (m : mem) (a : Z) (bs : list Z) : Prop :=
  forall i b, nth_error bs i = Some b -> m (a + Z.of_nat i) = Some b.

(** ** ELF notes (gabi, "Note Section"): name and descriptor padded to 4 bytes. *)
Record note := { nt_name : list Z; nt_desc : list Z; nt_type : Z }.
Definition pad4 (n : Z) : list Z := repeat 0 (Z.to_nat ((- n) mod 4)).
Definition enc_note (n : note) : list Z :=
  le_bytes 4 (zlen (nt_name n)) ++ le_bytes 4 (zlen (nt_desc n)) ++ le_bytes 4 (nt_type n)
  ++ nt_name n ++ pad4 (zlen (nt_name n)) ++ nt_desc n ++ pad4 (zlen (nt_desc n)).
Definition enc_notes (ns : list note) : list Z := flat_map enc_note ns.
(** "GNU", terminated, and type NT_GNU_BUILD_ID. *)
Definition build_id_note (n : note) : Prop :=
  nt_name n = [71; 78; 85; 0] /\ nt_type n = 3.
Definition note_ok (n : note) : Prop :=
  bytes_ok (nt_name n) /\ bytes_ok (nt_desc n) /\ 0 <= nt_type n < 2 ^ 32.

(** Lower-case hexadecimal. *)
Definition hex_alphabet : list Z :=
  [48;49;50;51;52;53;54;55;56;57;97;98;99;100;101;102].   (* 0123456789abcdef *)
Definition in_hex (bs : list Z) : list Z :=
  flat_map (fun b => [nth (Z.to_nat (b / 16)) hex_alphabet 0;
                      nth (Z.to_nat (b mod 16)) hex_alphabet 0]) bs.

(** ** Symbols and dynamic entries as stored (elf.h, Elf64_Sym, Elf64_Dyn) *)
Record rawsym := {
  w_name : Z; w_info : Z; w_other : Z; w_shndx : Z; w_value : Z; w_size : Z }.
Definition enc_sym (s : rawsym) : list Z :=
  le_bytes 4 (w_name s) ++ le_bytes 1 (w_info s) ++ le_bytes 1 (w_other s)
  ++ le_bytes 2 (w_shndx s) ++ le_bytes 8 (w_value s) ++ le_bytes 8 (w_size s).
Definition rawsym_ok (s : rawsym) : Prop :=
  0 <= w_name s < 2 ^ 32 /\ 0 <= w_info s < 2 ^ 8 /\ 0 <= w_other s < 2 ^ 8 /\
  0 <= w_shndx s < 2 ^ 16 /\ 0 <= w_value s < 2 ^ 64 /\ 0 <= w_size s < 2 ^ 64.
(** A symbol defined in a section of its object. *)
Definition raw_defined (s : rawsym) : Prop := 0 < w_shndx s < 0xff00.
(** The string table has the string [nm] at [off]. *)
Definition string_at (strs : list Z) (off : Z) (nm : list Z) : Prop :=
  Forall (fun c => 0 < c) nm /\
  exists pre post, strs = pre ++ nm ++ 0 :: post /\ zlen pre = off.
(** The table exports [nm] with this type and value. *)
Definition exports (syms : list rawsym) (strs : list Z) (nm : list Z) (ty v : Z) : Prop :=
  exists s, In s syms /\ raw_defined s /\ string_at strs (w_name s) nm /\
            ty = w_info s mod 16 /\ v = w_value s.
Definition enc_dyn (d : Z * Z) : list Z := le_bytes 8 (fst d) ++ le_bytes 8 (snd d).

(** ** Segments in memory: the parts of the PT_LOAD segments that differ in
    protection once the loader has made the RELRO part read-only. *)
Record seg := { g_vaddr : Z; g_memsz : Z; g_filesz : Z; g_flags : Z }.
Definition seg_of (p : phdr) : seg :=
  {| g_vaddr := p_vaddr p; g_memsz := p_memsz p; g_filesz := p_filesz p;
     g_flags := p_flags p mod 8 |}.
(** Bit 1 of the flags is the write permission. *)
Definition no_write (fl : Z) : Z := fl mod 2 + 4 * ((fl / 4) mod 2).
Definition piece (phs : list phdr) (g : seg) : Prop :=
  (exists l, In l phs /\ p_type l = 1 /\ g = seg_of l /\
     forall r, In r phs -> p_type r = 0x6474e552 -> p_vaddr r <> p_vaddr l)
  \/ (exists r, In r phs /\ p_type r = 0x6474e552 /\
        g = {| g_vaddr := p_vaddr r; g_memsz := p_memsz r; g_filesz := p_filesz r;
               g_flags := no_write (p_flags r) |})
  \/ (exists l r, In l phs /\ p_type l = 1 /\ In r phs /\ p_type r = 0x6474e552 /\
        p_vaddr l = p_vaddr r /\
        g = {| g_vaddr := p_vaddr r + p_memsz r; g_memsz := p_memsz l - p_memsz r;
               g_filesz := p_filesz l - p_filesz r; g_flags := p_flags l mod 8 |}).
Definition inside (v a n : Z) : Prop := a <= v < a + n.

(** The protections of a mapping (PROT_READ 1, PROT_WRITE 2, PROT_EXEC 4) and the
    flags of a segment (PF_X 1, PF_W 2, PF_R 4) say the same. *)
Definition same_access (fl prot : Z) : Prop :=
  fl = 4 * (prot mod 2) + 2 * ((prot / 2) mod 2) + (prot / 4) mod 2.
(** The mapping is the segment's pages once loaded with the bias [load]. *)
Definition is_mapping_of (pg load : Z) (g : seg) (v : area) : Prop :=
  a_start v = (g_vaddr g + load) mod 2 ^ 64 / pg * pg /\
  a_end v = (g_vaddr g + load + g_filesz g + pg - 1) mod 2 ^ 64 / pg * pg /\
  same_access (g_flags g) (a_prot v).

(** Program headers of a regular object: values in range, no segment wraps, no two
    PT_LOADs at the same address, at most one RELRO, which is the beginning of a
    PT_LOAD but not all of it. *)
Definition regular (phs : list phdr) : Prop :=
  Forall (fun p => 0 <= p_vaddr p /\ 0 <= p_memsz p /\ p_vaddr p + p_memsz p < 2 ^ 64
                   /\ 0 <= p_filesz p < 2 ^ 64 /\ 0 <= p_flags p < 2 ^ 32) phs /\
  ForallOrdPairs (fun p q => p_type p = 1 -> p_type q = 1 -> p_vaddr p <> p_vaddr q) phs /\
  ForallOrdPairs (fun p q => ~ (p_type p = 0x6474e552 /\ p_type q = 0x6474e552)) phs /\
  (forall r, In r phs -> p_type r = 0x6474e552 ->
     exists l, In l phs /\ p_type l = 1 /\ p_vaddr l = p_vaddr r /\
               0 < p_memsz r < p_memsz l /\ p_filesz r <= p_filesz l).

(** ** Processors: one step of the few instructions jump tables use.
    [reg] are the general registers; memory is not changed by any of them. *)
Record cpu := { pc : Z; reg : Z -> Z }.
Definition bitsof (w hi lo : Z) : Z := (w / 2 ^ lo) mod 2 ^ (hi - lo + 1).
Definition load_val (m : mem) (a : Z) (n : nat) : option Z :=
  match mread m a n with Some bs => Some (le_val bs) | None => None end.
Definition set_reg (f : Z -> Z) (r v : Z) : Z -> Z := fun x => if x =? r then v else f x.

(** Intel SDM, JMP r/m64 with RIP-relative operand (FF /4, ModRM 0x25, disp32). *)
Definition x86_step (m : mem) (s : cpu) : option cpu :=
  match mread m (pc s) 6 with
  | Some [b0; b1; d0; d1; d2; d3] =>
      if (b0 =? 0xff) && (b1 =? 0x25) then
        match load_val m (u64 (pc s + 6 + sext 32 (le_val [d0; d1; d2; d3]))) 8 with
        | Some t => Some {| pc := t; reg := reg s |}
        | None => None
        end
      else None
  | _ => None
  end.

(** Arm ARM: LDR (literal, 64-bit) and BR. *)
Definition a64_step (m : mem) (s : cpu) : option cpu :=
  match load_val m (pc s) 4 with
  | None => None
  | Some w =>
      if bitsof w 31 24 =? 0x58 then
        match load_val m (u64 (pc s + 4 * sext 19 (bitsof w 23 5))) 8 with
        | Some v => Some {| pc := u64 (pc s + 4); reg := set_reg (reg s) (bitsof w 4 0) v |}
        | None => None
        end
      else if (bitsof w 31 10 =? 0x3587c0) && (bitsof w 4 0 =? 0) then
        Some {| pc := reg s (bitsof w 9 5); reg := reg s |}
      else None
  end.

(** RISC-V unprivileged ISA: AUIPC, LD, JALR; x0 is zero. *)
Definition rv_get (s : cpu) (r : Z) : Z := if r =? 0 then 0 else reg s r.
Definition rv_set (f : Z -> Z) (r v : Z) : Z -> Z := if r =? 0 then f else set_reg f r v.
Definition rv_step (m : mem) (s : cpu) : option cpu :=
  match load_val m (pc s) 4 with
  | None => None
  | Some w =>
      let rd := bitsof w 11 7 in let rs1 := bitsof w 19 15 in
      if bitsof w 6 0 =? 0x17 then
        Some {| pc := u64 (pc s + 4);
                reg := rv_set (reg s) rd (u64 (pc s + sext 32 (bitsof w 31 12 * 2 ^ 12))) |}
      else if (bitsof w 6 0 =? 0x03) && (bitsof w 14 12 =? 3) then
        match load_val m (u64 (rv_get s rs1 + sext 12 (bitsof w 31 20))) 8 with
        | Some v => Some {| pc := u64 (pc s + 4); reg := rv_set (reg s) rd v |}
        | None => None
        end
      else if (bitsof w 6 0 =? 0x67) && (bitsof w 14 12 =? 0) then
        Some {| pc := 2 * (u64 (rv_get s rs1 + sext 12 (bitsof w 31 20)) / 2);
                reg := rv_set (reg s) rd (u64 (pc s + 4)) |}
      else None
  end.

(** LoongArch: PCADDU12I, LD.D, JIRL; r0 is zero. *)
Definition la_step (m : mem) (s : cpu) : option cpu :=
  match load_val m (pc s) 4 with
  | None => None
  | Some w =>
      let rd := bitsof w 4 0 in let rj := bitsof w 9 5 in
      if bitsof w 31 25 =? 0x0e then
        Some {| pc := u64 (pc s + 4);
                reg := rv_set (reg s) rd (u64 (pc s + sext 32 (bitsof w 24 5 * 2 ^ 12))) |}
      else if bitsof w 31 22 =? 0xa3 then
        match load_val m (u64 (rv_get s rj + sext 12 (bitsof w 21 10))) 8 with
        | Some v => Some {| pc := u64 (pc s + 4); reg := rv_set (reg s) rd v |}
        | None => None
        end
      else if bitsof w 31 26 =? 0x13 then
        Some {| pc := u64 (rv_get s rj + 4 * sext 16 (bitsof w 25 10));
                reg := rv_set (reg s) rd (u64 (pc s + 4)) |}
      else None
  end.

Fixpoint steps (step1 : cpu -> option cpu) (n : nat) (s : cpu) : option cpu :=
  match n with
  | O => Some s
  | S n' => match step1 s with Some s' => steps step1 n' s' | None => None end
  end.

Definition cpu_step (a : arch) (m : mem) : cpu -> option cpu :=
  match a with
  | X86 => x86_step m | A64 => a64_step m | RV => rv_step m | LA => la_step m
  end.
(** Registers a call may destroy before it reaches the callee: x17 (IP1), x31 (t6),
    r13 and r15 (t1, t3). *)
Definition scratch (a : arch) (r : Z) : bool :=
  match a with
  | X86 => false | A64 => r =? 17 | RV => r =? 31 | LA => (r =? 13) || (r =? 15)
  end.
(** RISC-V instruction addresses are even. *)
Definition code_addr_ok (a : arch) (t : Z) : Prop :=
  0 < t < 2 ^ 64 /\ match a with RV => t mod 2 = 0 | _ => True end.

(** ** Headers as stored (elf.h, Elf64_Ehdr, Elf64_Phdr) *)
Record rawehdr := {
  i_ident : list Z; i_type : Z; i_machine : Z; i_version : Z; i_entry : Z; i_phoff : Z;
  i_shoff : Z; i_flags : Z; i_ehsize : Z; i_phentsize : Z; i_phnum : Z; i_shentsize : Z;
  i_shnum : Z; i_shstrndx : Z }.
Definition enc_ehdr (h : rawehdr) : list Z :=
  i_ident h ++ le_bytes 2 (i_type h) ++ le_bytes 2 (i_machine h) ++ le_bytes 4 (i_version h)
  ++ le_bytes 8 (i_entry h) ++ le_bytes 8 (i_phoff h) ++ le_bytes 8 (i_shoff h)
  ++ le_bytes 4 (i_flags h) ++ le_bytes 2 (i_ehsize h) ++ le_bytes 2 (i_phentsize h)
  ++ le_bytes 2 (i_phnum h) ++ le_bytes 2 (i_shentsize h) ++ le_bytes 2 (i_shnum h)
  ++ le_bytes 2 (i_shstrndx h).
(** An ELF header: magic number, fields in range, at least one program header. *)
Definition rawehdr_ok (h : rawehdr) : Prop :=
  (exists tl, i_ident h = [0x7f; 69; 76; 70] ++ tl /\ zlen tl = 12) /\
  0 <= i_type h < 2 ^ 16 /\ 0 <= i_phoff h < 2 ^ 64 /\ i_phentsize h = 56 /\
  0 < i_phnum h < 2 ^ 16.
(** A program header with the two fields nobody here looks at. *)
Definition enc_phdr (x : phdr * (Z * Z)) : list Z :=
  let '(p, (paddr, align)) := x in
  le_bytes 4 (p_type p) ++ le_bytes 4 (p_flags p) ++ le_bytes 8 (p_offset p)
  ++ le_bytes 8 (p_vaddr p) ++ le_bytes 8 paddr ++ le_bytes 8 (p_filesz p)
  ++ le_bytes 8 (p_memsz p) ++ le_bytes 8 align.
Definition phdr_ok (p : phdr) : Prop :=
  0 <= p_type p < 2 ^ 32 /\ 0 <= p_flags p < 2 ^ 32 /\ 0 <= p_offset p < 2 ^ 64 /\
  0 <= p_vaddr p < 2 ^ 64 /\ 0 <= p_filesz p < 2 ^ 64 /\ 0 <= p_memsz p < 2 ^ 64.
