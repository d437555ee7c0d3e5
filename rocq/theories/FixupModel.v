(** kpatch_strip --rel-fixup: the relocations of a linked patch made ready for the loader
    (/repo/src/kpatch_strip.c:267-577, kpatch_elf_objinfo.c, arch/*/arch_strip.c).
    Definitions only.  Object files are decoded, as in StripModel. *)
From Coq Require Import String.
From Verif Require Import Base RelocModel TextModel StorageModel StripModel.
Open Scope list_scope.

(** How a step ends: as it should, with -1, in kpfatalerror, or in an access through NULL
    or outside a section's bytes. *)
Inductive fixed (A : Type) := FOk (a : A) | FErr | FDie | FCrash.
Arguments FOk {A}. Arguments FErr {A}. Arguments FDie {A}. Arguments FCrash {A}.

Definition R_X86_64_DTPMOD64 := 16. Definition R_X86_64_DTPOFF64 := 17.
Definition R_RISCV_TLS_TPREL32 := 10. Definition R_RISCV_TLS_TPREL64 := 11.
Definition R_LARCH_TLS_IE_PC_HI20 := 87. Definition R_LARCH_TLS_IE_PC_LO12 := 88.
Definition R_LARCH_TLS_IE_HI20 := 91. Definition R_LARCH_TLS_IE_LO12 := 92.
Definition R_LARCH_TLS_TPREL32 := 10. Definition R_LARCH_TLS_TPREL64 := 11.
Definition R_LARCH_TLS_LE_LO12 := 84. Definition R_LARCH_TLS_LE_LO12_R := 123.
Definition AT := 64. (* '@' *)
Definition DOT := 46.

(** ** Where a symbol is *)
(** kpatch_get_symbol_offset_rel_section, 270-309: offset and name of the section; [None]
    is -1.  A TLS symbol has no name of a section. *)
Definition sym_loc (secs : list sec) (y : sym) : option (Z * option text) :=
  if y_type y =? STT_TLS then Some (y_value y, None)
  else match nth_error secs (Z.to_nat (y_shndx y)) with
       | None => None
       | Some s => if y_value y <? s_addr s then None else Some (y_value y - s_addr s, Some (s_name s))
       end.
Fixpoint find_sym (n : text) (ys : list sym) : option sym :=
  match ys with [] => None | y :: r => if same (y_name y) n then Some y else find_sym n r end.
(** kpatch_get_original_symbol_loc, 311-344, with NULL for the name of the section: the
    name of the section of a symbol that is not TLS is stored through it. *)
Definition orig_tls_loc (orig : obj) (n : text) : fixed Z :=
  match find_sym n (o_syms orig) with
  | None => FErr
  | Some y => if y_shndx y =? 0 then FErr
              else match sym_loc (o_secs orig) y with
                   | None => FErr
                   | Some (o, None) => FOk o
                   | Some (_, Some _) => FCrash
                   end
  end.
(** kpatch_get_local_symbol_loc, 346-375: the number of the section's symbol and the offset *)
Fixpoint find_section_sym (sh : Z) (ys : list sym) (i : Z) : option Z :=
  match ys with
  | [] => None
  | y :: r => if (y_type y =? STT_SECTION) && (y_shndx y =? sh) then Some i else find_section_sym sh r (i + 1)
  end.
Definition local_loc (p : obj) (ys : list sym) (y : sym) : option (Z * Z) :=
  match find_section_sym (y_shndx y) ys 0, sym_loc (o_secs p) y with
  | Some i, Some (o, _) => Some (i, o)
  | _, _ => None
  end.

(** kpatch_objinfo_is_our_section and the list it looks in, kpatch_elf_objinfo.c:56-75,151-161 *)
Definition our_section (secs : list sec) (n : Z) : bool :=
  (0 <? n) && match nth_error secs (Z.to_nat n) with Some s => starts (s_name s) (str ".kpatch") | None => false end.

(** ** Entries of the original's global offset table, by what is to be put there *)
(** kpatch_is_tls_rela, include/kpatch_elf_objinfo.h:66-89 *)
Definition tls_rela_x86 (r : rela) : bool :=
  (r_type r =? R_X86_64_TPOFF64) || (r_type r =? R_X86_64_DTPOFF64) || (r_type r =? R_X86_64_DTPMOD64).
Definition tls_rela_riscv (r : rela) : bool := (r_type r =? R_RISCV_TLS_TPREL32) || (r_type r =? R_RISCV_TLS_TPREL64).
Definition tls_rela_larch (r : rela) : bool := (r_type r =? R_LARCH_TLS_TPREL32) || (r_type r =? R_LARCH_TLS_TPREL64).
(** arch/loongarch64/arch_strip.c:41,71: what its two searches take *)
Definition ie_larch (r : rela) : bool := (r_type r =? R_LARCH_TLS_IE_HI20) || (r_type r =? R_LARCH_TLS_IE_LO12).
(** .rela.dyn, kpatch_elf_objinfo.c:125-149,175-188; the dynamic symbols' names are given. *)
Fixpoint find_scn (n : text) (ss : list sec) : option sec :=
  match ss with [] => None | s :: r => if same n (s_name s) then Some s else find_scn n r end.
(** kpatch_objinfo_load_tls_reladyn, 163-212: from the first to the last entry that [tls] takes.
    Searches that skip the others in between find the same without the ends cut. *)
Fixpoint drop_to (f : rela -> bool) (rs : list rela) : list rela :=
  match rs with [] => [] | r :: t => if f r then rs else drop_to f t end.
Definition tls_reladyn (tls : rela -> bool) (orig : obj) : option (list rela) :=
  match find_scn (str ".rela.dyn") (tl (o_secs orig)) with
  | Some s => match s_data s with
              | CRelas rs => let c := drop_to tls rs in
                             if existsb tls c then Some (rev (drop_to tls (rev c))) else None
              | CBytes _ => None
              end
  | None => None
  end.
(** objinfo_find_tls_got_by_offset, arch/x86/arch_strip.c:42-66 *)
Fixpoint got_by_offset (f : rela -> bool) (rs : list rela) (off : Z) : option Z :=
  match rs with
  | [] => None
  | r :: t => if f r && ((r_sym r =? 0) && (r_addend r =? off)) then Some (r_offset r) else got_by_offset f t off
  end.
(** objinfo_find_tls_got_by_symname, 68-105.  LoongArch asks for the addend 0 later, which only matters if there is no such symbol. *)
Fixpoint got_by_name (f : rela -> bool) (dyn : list text) (rs : list rela) (n : text) : fixed Z :=
  match rs with
  | [] => FDie
  | r :: t =>
      if negb (f r) || ((r_sym r =? 0) || negb (r_addend r =? 0)) then got_by_name f dyn t n
      else match nth_error dyn (Z.to_nat (r_sym r)) with
           | None => FDie
           | Some d => if same d n then FOk (r_offset r) else got_by_name f dyn t n
           end
  end.
Fixpoint upto (c : Z) (n : text) : text := match n with [] => [] | x :: r => if x =? c then [] else x :: upto c r end.

(** What differs between the architectures *)
Record farch := {
  f_tls : list text -> obj -> obj -> rela -> sym -> Z -> list Z -> fixed rela;   (* kpatch_arch_fixup_rela_update_tls *)
  f_copy : bool }.                                                    (* kpatch_arch_fixup_rela_copy does something *)
Definition with_addend (r : rela) (a : Z) : rela := {| r_offset := r_offset r; r_type := r_type r; r_sym := r_sym r; r_addend := a |}.
Definition with_info (r : rela) (s t : Z) : rela := {| r_offset := r_offset r; r_type := t; r_sym := s; r_addend := r_addend r |}.
(** update_reloc_with_tls_got_entry, arch/x86/arch_strip.c:107-151.  [miss] is what is
    returned when no entry has the offset.  Simplified: an '@' in the name is cut off for
    the search only. *)
Definition tls_got (tls take : rela -> bool) (miss : fixed Z) (dyn : list text) (orig : obj) (r : rela) (y : sym) : fixed rela :=
  let got :=
    if (y_bind y =? STB_LOCAL) || negb (y_shndx y =? SHN_UNDEF) then
      match tls_reladyn tls orig with
      | None => FDie
      | Some rs => match got_by_offset take rs (y_value y) with Some o => FOk o | None => miss end
      end
    else if y_bind y =? STB_GLOBAL then
      match tls_reladyn tls orig with None => FDie | Some rs => got_by_name take dyn rs (upto AT (y_name y)) end
    else FErr in
  match got with FOk g => FOk (with_addend r g) | FErr => FErr | FDie => FDie | FCrash => FCrash end.
(** kpatch_arch_fixup_rela_update_tls, arch/x86/arch_strip.c:179-229 *)
Definition x86_tls (dyn : list text) (orig patch : obj) (r : rela) (y : sym) (addr : Z) (text : list Z) : fixed rela :=
  if r_type r =? R_X86_64_TPOFF32 then
    match orig_tls_loc orig (y_name y) with
    | FOk o => if o =? y_value y then FOk (with_info r 0 R_X86_64_NONE) else FErr
    | FErr => FErr | FDie => FDie | FCrash => FCrash
    end
  else if r_type r =? R_X86_64_GOTTPOFF then tls_got tls_rela_x86 tls_rela_x86 FDie dyn orig r y
  else FErr.
(** arch/riscv64/arch_strip.c:154-180 *)
Definition riscv_tls (dyn : list text) (orig patch : obj) (r : rela) (y : sym) (addr : Z) (text : list Z) : fixed rela :=
  let t := r_type r in
  if (t =? R_RISCV_TPREL_HI20) || (t =? R_RISCV_TPREL_ADD) || (t =? R_RISCV_TPREL_LO12_I) || (t =? R_RISCV_TPREL_LO12_S)
     || (t =? R_RISCV_TPREL_I) || (t =? R_RISCV_TPREL_S) then FOk r
  else if t =? R_RISCV_TLS_GOT_HI20 then tls_got tls_rela_riscv tls_rela_riscv FDie dyn orig r y
  else FErr.
(** arch/loongarch64/arch_strip.c:139-177; no entry with the offset: 0, line 50-51.  By name a
    failure is fatal too. *)
Definition larch_tls (dyn : list text) (orig patch : obj) (r : rela) (y : sym) (addr : Z) (text : list Z) : fixed rela :=
  let t := r_type r in
  if (t =? R_LARCH_TLS_LE_LO12) || (t =? R_LARCH_TLS_LE_LO12_R) then
    match orig_tls_loc orig (y_name y) with
    | FOk o => if o =? y_value y then FOk (with_info r 0 0) else FErr
    | FErr => FErr | FDie => FDie | FCrash => FCrash
    end
  else if (t =? R_LARCH_TLS_IE_PC_HI20) || (t =? R_LARCH_TLS_IE_PC_LO12) || (t =? R_LARCH_TLS_IE_HI20) || (t =? R_LARCH_TLS_IE_LO12)
  then tls_got tls_rela_larch ie_larch (FOk 0) dyn orig r y
  else FErr.
(** arch/aarch64/arch_strip.c:46-70: the page in the ADRP, from the section's start *)
Definition adrp_got (w addr : Z) : Z :=
  let imm := Z.lor (Z.shiftl (Z.land (Z.shiftr w 5) 0x7ffff) 2) (Z.land (Z.shiftr w 29) 3) in
  u32 (u32 (Z.shiftl imm 12) + Z.land addr 0xfffff000).
(** arch/aarch64/arch_strip.c:72-109 *)
Definition a64_tls (dyn : list text) (orig patch : obj) (r : rela) (y : sym) (addr : Z) (text : list Z) : fixed rela :=
  if y_bind y =? STB_LOCAL then FOk r
  else if r_type r =? R_AARCH64_TLSIE_ADR_GOTTPREL_PAGE21 then
    let off := u64 (r_offset r - addr) in
    match slice text off 4 with Some w => FOk (with_addend r (adrp_got (le_val w) addr)) | None => FCrash end
  else if r_type r =? R_AARCH64_TLSIE_LD64_GOTTPREL_LO12_NC then FOk r
  else FErr.
Definition fx86 := {| f_tls := x86_tls; f_copy := false |}.
Definition fa64 := {| f_tls := a64_tls; f_copy := false |}.
Definition friscv := {| f_tls := riscv_tls; f_copy := true |}.
Definition flarch := {| f_tls := larch_tls; f_copy := true |}.

(** ** One relocation *)
Definition is_gotpcrel (t : Z) : bool := (t =? R_X86_64_GOTPCREL) || (t =? R_X86_64_REX_GOTPCRELX) || (t =? R_X86_64_GOTPCRELX).
(** The bytes with MOV at [off] made LEA, 473-491 *)
Definition mov_lea (bs : list Z) (off : Z) : fixed (list Z) :=
  match slice bs off 1 with
  | Some [b] => if b =? 0x8b then match splice bs off [0x8d] with Some bs' => FOk bs' | None => FCrash end else FOk bs
  | _ => FCrash
  end.
Definition plt_pc (r : rela) : rela := if r_type r =? R_X86_64_PLT32 then with_info r (r_sym r) R_X86_64_PC32 else r.
Definition undefine (y : sym) : sym :=
  {| y_name := y_name y; y_value := y_value y; y_size := y_size y; y_shndx := 0; y_type := y_type y; y_bind := y_bind y |}.
(** kpatch_fixup_rela_one, 398-506: the relocation, the symbol to be stored, if any, and the
    bytes of the section relocated.  [addr]: its address. *)
Definition fixup_one (A : farch) (dyn : list text) (orig patch : obj) (syms : list sym) (r : rela) (y : sym) (addr : Z) (bs : list Z)
    : fixed (rela * option sym * list Z) :=
  if y_type y =? STT_SECTION then FOk (r, None, bs)
  else if y_type y =? STT_TLS then
    match f_tls A dyn orig patch r y addr bs with FOk r' => FOk (r', None, bs) | FErr => FErr | FDie => FDie | FCrash => FCrash end
  else if our_section (o_secs patch) (y_shndx y) then FOk (plt_pc r, None, bs)
  else if negb (y_type y =? STT_NOTYPE) && negb (y_type y =? STT_FUNC) && negb (y_type y =? STT_OBJECT) && negb (y_bind y =? STB_LOCAL) then FErr
  else
    let r1 := if (y_bind y =? STB_LOCAL) && match y_name y with c :: _ => c =? DOT | [] => false end then
                match local_loc patch syms y with
                | None => None
                | Some (i, o) => Some (with_addend (with_info r i (r_type r)) (u64 (r_addend r + o)))
                end
              else Some r in
    match r1 with
    | None => FErr
    | Some r' =>
        if y_shndx y =? SHN_UNDEF then FOk (plt_pc r', None, bs)
        else
          match (if is_gotpcrel (r_type r') then mov_lea bs (u64 (r_offset r' - addr - 2)) else FOk bs) with
          | FOk bs' =>
              if f_copy A && existsb (Z.eqb AT) (y_name y) && match find_scn (y_name y) (tl (o_secs orig)) with None => true | Some _ => false end
              then FOk (plt_pc r', Some (undefine y), bs')
              else FOk (plt_pc r', None, bs')
          | FErr => FErr | FDie => FDie | FCrash => FCrash
          end
    end.
(** kpatch_fixup_rela, 508-577: all the relocations of a section; the symbol is stored at the
    number the relocation has afterwards. *)
Definition set_nth {A} (l : list A) (n : nat) (x : A) : list A := firstn n l ++ match skipn n l with [] => [] | _ :: r => x :: r end.
Fixpoint fixup_relas (A : farch) (dyn : list text) (orig patch : obj) (syms : list sym) (rs : list rela) (addr : Z) (bs : list Z)
    : fixed (list rela * list sym * list Z) :=
  match rs with
  | [] => FOk ([], syms, bs)
  | r :: t =>
      match nth_error syms (Z.to_nat (r_sym r)) with
      | None => FErr
      | Some y =>
          match fixup_one A dyn orig patch syms r y addr bs with
          | FOk (r', oy, bs') =>
              let syms' := match oy with Some y' => set_nth syms (Z.to_nat (r_sym r')) y' | None => syms end in
              match fixup_relas A dyn orig patch syms' t addr bs' with
              | FOk (rs', ys, bs'') => FOk (r' :: rs', ys, bs'')
              | FErr => FErr | FDie => FDie | FCrash => FCrash
              end
          | FErr => FErr | FDie => FDie | FCrash => FCrash
          end
      end
  end.
