(** kpatch_strip: --strip, --rel-fixup and --undo-link (/repo/src/kpatch_strip.c,
    kpatch_elf_objinfo.c, arch/*/arch_strip.c).  Definitions only.
    An object file is given decoded: its sections in order, with section 0, and its
    symbol table.  libelf's own failures are not modelled. *)
From Coq Require Import String.
From Verif Require Import Base RelocModel EngineModel StorageModel TextModel.
Open Scope list_scope.

(** A section: its header and contents.  A relocation section has its entries as contents. *)
Inductive content := CBytes (bs : list Z) | CRelas (rs : list rela).
Record sec := { s_name : text; s_type : Z; s_flags : Z; s_addr : Z; s_offset : Z; s_size : Z;
  s_link : Z; s_info : Z; s_align : Z; s_data : content }.
Record obj := { o_secs : list sec; o_syms : list sym; o_type : Z; o_shoff : Z; o_phnum : Z }.
Definition with_secs (o : obj) (ss : list sec) : obj :=
  {| o_secs := ss; o_syms := o_syms o; o_type := o_type o; o_shoff := o_shoff o; o_phnum := o_phnum o |}.
Definition with_syms (o : obj) (ys : list sym) : obj :=
  {| o_secs := o_secs o; o_syms := ys; o_type := o_type o; o_shoff := o_shoff o; o_phnum := o_phnum o |}.
Definition with_addr (s : sec) (a : Z) : sec :=
  {| s_name := s_name s; s_type := s_type s; s_flags := s_flags s; s_addr := a; s_offset := s_offset s; s_size := s_size s;
     s_link := s_link s; s_info := s_info s; s_align := s_align s; s_data := s_data s |}.
Definition with_data (s : sec) (d : content) : sec :=
  {| s_name := s_name s; s_type := s_type s; s_flags := s_flags s; s_addr := s_addr s; s_offset := s_offset s; s_size := s_size s;
     s_link := s_link s; s_info := s_info s; s_align := s_align s; s_data := d |}.
Definition SHT_RELA := 4.  Definition SHT_NOBITS := 8.  Definition SHT_REL := 9.
Definition SHF_ALLOC := 2. Definition ET_REL := 1.

(** ** --strip *)
(** need_section, 53-64 *)
Definition need_section (n : text) : bool :=
  contains n (str "kpatch") || same n (str ".symtab") || same n (str ".strtab") || same n (str ".shstrtab").
(** check_info_len, 85-102: true if a function is too small *)
Definition small (i : info) : bool := negb (is_new_func i) && (dlen i <? 5).
Definition info_bytes (d : content) : list Z := match d with CBytes bs => bs | CRelas _ => [] end.
Definition check_info_len (bs : list Z) : bool := existsb small (infos_of bs 0 (Z.to_nat (zlen bs / info_size))).
Definition LAST_SIZE := 24.

(** The body of the loop of kpatch_strip, 173-238; [off] is [None] for -1ull.  The result:
    the new section and the next offset, or [None] for -1. *)
Definition strip_one (off : option Z) (s : sec) : option (sec * Z) :=
  let o := match off with Some o => round_up o (s_align s) | None => s_offset s end in
  if need_section (s_name s) then
    let o' := u64 (o + s_size s) in
    if same (s_name s) (str ".kpatch.info") then
      if check_info_len (info_bytes (s_data s)) then None
      else Some ({| s_name := s_name s; s_type := s_type s; s_flags := s_flags s; s_addr := s_addr s; s_offset := o;
                    s_size := u64 (s_size s + LAST_SIZE); s_link := s_link s; s_info := s_info s; s_align := s_align s;
                    s_data := match s_data s with CBytes bs => CBytes (bs ++ repeat 0 24) | d => d end |}, u64 (o' + LAST_SIZE))
    else Some ({| s_name := s_name s; s_type := s_type s; s_flags := s_flags s; s_addr := s_addr s; s_offset := o;
                  s_size := s_size s; s_link := s_link s; s_info := s_info s; s_align := s_align s; s_data := s_data s |}, o')
  else Some ({| s_name := s_name s; s_type := SHT_NOBITS;
                s_flags := if starts (s_name s) (str ".rela") then SHF_ALLOC else s_flags s;
                s_addr := s_addr s; s_offset := o; s_size := s_size s; s_link := s_link s; s_info := s_info s;
                s_align := s_align s; s_data := CBytes [] |}, o).
Fixpoint strip_secs (off : option Z) (ss : list sec) : option (list sec * option Z) :=
  match ss with
  | [] => Some ([], off)
  | s :: ss' =>
      match strip_one off s with
      | None => None
      | Some (s', o) =>
          match strip_secs (Some o) ss' with None => None | Some (r, o') => Some (s' :: r, o') end
      end
  end.
(** kpatch_strip, 137-265: section 0 is left, the symbols are in a section that is kept,
    the program headers are not copied. *)
Definition strip (o : obj) : option obj :=
  match o_secs o with
  | [] => None
  | s0 :: ss =>
      match strip_secs None ss with
      | Some (ss', Some off) =>
          Some {| o_secs := s0 :: ss'; o_syms := o_syms o; o_type := o_type o; o_shoff := round_up off 8; o_phnum := 0 |}
      | _ => None
      end
  end.

(** ** --undo-link *)
(** kpatch_rel_offset_to_relative, 648-681: the section relocated is found by its number;
    when there is none its address counts as 0. *)
Definition addr_of (secs : list sec) (n : Z) : Z :=
  match nth_error secs (Z.to_nat n) with Some s => s_addr s | None => 0 end.
Definition shift_rela (a : Z) (r : rela) : rela :=
  {| r_offset := u64 (r_offset r - a); r_type := r_type r; r_sym := r_sym r; r_addend := r_addend r |}.
Definition rel_one (secs : list sec) (s : sec) : sec :=
  if s_type s =? SHT_RELA then
    match s_data s with
    | CRelas rs => if addr_of secs (s_info s) =? 0 then s else with_data s (CRelas (map (shift_rela (addr_of secs (s_info s))) rs))
    | CBytes _ => s
    end
  else s.
(** kpatch_rel_symbols_to_relative, 686-727 *)
Definition skip_sym (y : sym) : bool :=
  (y_shndx y =? SHN_UNDEF) || (SHN_LORESERVE <=? y_shndx y) || (y_type y =? STT_TLS) || (y_type y =? STT_SECTION).
Definition sym_value (y : sym) (v : Z) : sym :=
  {| y_name := y_name y; y_value := v; y_size := y_size y; y_shndx := y_shndx y; y_type := y_type y; y_bind := y_bind y |}.
Definition sym_one (secs : list sec) (y : sym) : option sym :=
  if skip_sym y then Some y
  else match nth_error secs (Z.to_nat (y_shndx y)) with
       | None => None
       | Some s => if s_addr s =? 0 then Some y else Some (sym_value y (u64 (y_value y - s_addr s)))
       end.
Fixpoint syms_all (f : sym -> option sym) (ys : list sym) : option (list sym) :=
  match ys with
  | [] => Some []
  | y :: r => match f y with None => None | Some y' => match syms_all f r with None => None | Some r' => Some (y' :: r') end end
  end.

(** kpatch_arch_fixup_addr_bias: nothing on x86 and AArch64; RISC-V and LoongArch
    (arch/riscv64/arch_strip.c:217-265). *)
Fixpoint find_orig (y : sym) (os : list sym) : option sym :=
  match os with
  | [] => None
  | o :: r => if same (y_name o) (y_name y) && (y_type o =? y_type y) && (y_bind o =? y_bind y) then Some o else find_orig y r
  end.
Definition bias_one (orig : obj) (secs : list sec) (y : sym) : option sym :=
  if (y_shndx y =? SHN_UNDEF) || negb (y_type y =? STT_FUNC) then Some y
  else match nth_error secs (Z.to_nat (y_shndx y)) with
       | None => None
       | Some s =>
           if starts (s_name s) (str ".kpatch.") then Some y
           else match find_orig y (tl (o_syms orig)) with
                | None => Some y
                | Some yo =>
                    match nth_error (o_secs orig) (Z.to_nat (y_shndx yo)) with
                    | None => None
                    | Some so => Some (sym_value y (u64 (y_value yo - s_addr so)))
                    end
                end
       end.

(** map_patch_to_orig_sections, 729-803.  The do loop, from section [ip] of the patch on:
    the number of the section found, or the number of sections; [None]: ip is no section. *)
Fixpoint find_from (name : text) (secs : list sec) (ip : nat) : option nat :=
  match secs with
  | [] => None
  | s :: r => if same name (s_name s) then Some ip else match r with [] => Some (S ip) | _ => find_from name r (S ip) end
  end.
(** The loop over the original's sections: the pairs (section of the patch, section of the
    original); [None] is the return of NULL.  [fuel] is the number of sections. *)
Fixpoint map_loop (fuel : nat) (orig patch : list sec) (io ip : nat) : option (list (nat * nat)) :=
  match fuel with
  | O => Some []
  | S f =>
      match nth_error orig io with
      | None => Some []
      | Some so =>
          if Z.land (s_flags so) SHF_ALLOC =? 0 then map_loop f orig patch (S io) ip
          else match find_from (s_name so) (skipn ip patch) ip with
               | None => None
               | Some k =>
                   if (length patch <=? k)%nat then map_loop f orig patch (S (S io)) 1
                   else match map_loop f orig patch (S io) (S k) with None => None | Some l => Some ((k, io) :: l) end
               end
      end
  end.
Definition map_sections (orig patch : list sec) : option (list (nat * nat)) := map_loop (length orig) orig patch 1 1.
(** The reverse mapping, 789-798: the last pair of a section of the patch wins. *)
Definition orig_of (l : list (nat * nat)) (i : nat) : option nat :=
  match find (fun p => Nat.eqb (fst p) i) (rev l) with Some p => Some (snd p) | None => None end.
(** kpatch_rel_copy_sections_addr, 805-850 *)
Definition copy_addr (orig : list sec) (l : list (nat * nat)) (i : nat) (s : sec) : sec :=
  match orig_of l i with
  | Some k => match nth_error orig k with Some so => with_addr s (s_addr so) | None => s end
  | None => s
  end.
Fixpoint mapi {A B} (f : nat -> A -> B) (i : nat) (l : list A) : list B :=
  match l with [] => [] | x :: r => f i x :: mapi f (S i) r end.

(** kpatch_objinfo_load, kpatch_elf_objinfo.c:43-95: no more than 16 sections of a patch *)
Definition load_ok (secs : list sec) : bool := zlen (filter (fun s => starts (s_name s) (str ".kpatch")) (tl secs)) <=? 16.

(** kpatch_undo_link, 852-933; [bias] as the architecture has it. *)
Definition undo_link (bias : bool) (orig patch : obj) : option obj :=
  let secs := o_secs patch in
  if negb (load_ok (o_secs orig) && load_ok secs) || existsb (fun s => s_type s =? SHT_REL) (tl secs) then None
  else
    let secs1 := firstn 1 secs ++ map (rel_one secs) (tl secs) in
    match syms_all (sym_one secs) (o_syms patch) with
    | None => None
    | Some ys =>
        match (if bias then match ys with [] => Some [] | y :: r => match syms_all (bias_one orig secs) r with None => None | Some r' => Some (y :: r') end end
               else Some ys) with
        | None => None
        | Some ys' =>
            match map_sections (o_secs orig) secs with
            | None => None
            | Some l => Some {| o_secs := mapi (copy_addr (o_secs orig) l) 0 secs1; o_syms := ys'; o_type := ET_REL;
                                o_shoff := o_shoff patch; o_phnum := 0 |}
            end
        end
    end.
