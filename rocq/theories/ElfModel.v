(** Reading the ELF objects of the patient and resolving a patch's symbols:
    kpatch_elf.c and the jump-table half of arch/<arch>/arch_elf.c. *)
From Verif Require Import Base RelocModel.

(** ** ELF structures as found in memory (elf.h) *)

(** The little-endian [n]-byte integer at [off]. *)
Definition field (bs : list Z) (off n : Z) : option Z :=
  match slice bs off n with Some f => Some (le_val f) | None => None end.

Record ehdr := { e_id0 : Z; e_type : Z; e_phoff : Z; e_phentsize : Z; e_phnum : Z }.
Record phdr := {
  p_type : Z; p_flags : Z; p_offset : Z; p_vaddr : Z; p_filesz : Z; p_memsz : Z }.

Definition EHDR_SIZE := 64.
Definition PHDR_SIZE := 56.
Definition PT_LOAD := 1.
Definition PT_DYNAMIC := 2.
Definition PT_INTERP := 3.
Definition PT_NOTE := 4.
Definition PT_GNU_RELRO := 0x6474e552.
Definition PF_X := 1.  Definition PF_W := 2.  Definition PF_R := 4.
Definition PROT_READ := 1.  Definition PROT_WRITE := 2.  Definition PROT_EXEC := 4.
Definition ET_DYN := 3.

Definition decode_ehdr (bs : list Z) : option ehdr :=
  match field bs 0 1, field bs 16 2, field bs 32 8, field bs 54 2, field bs 56 2 with
  | Some i, Some t, Some o, Some s, Some n =>
      Some {| e_id0 := i; e_type := t; e_phoff := o; e_phentsize := s; e_phnum := n |}
  | _, _, _, _, _ => None
  end.

Definition decode_phdr (bs : list Z) : option phdr :=
  match field bs 0 4, field bs 4 4, field bs 8 8, field bs 16 8, field bs 32 8,
        field bs 40 8 with
  | Some t, Some f, Some o, Some v, Some fs, Some ms =>
      Some {| p_type := t; p_flags := f; p_offset := o; p_vaddr := v;
              p_filesz := fs; p_memsz := ms |}
  | _, _, _, _, _, _ => None
  end.

(** An array of [n] structures of [sz] bytes each, at [off]. *)
Fixpoint decode_array {A} (dec : list Z -> option A) (sz : Z) (bs : list Z) (off : Z)
    (n : nat) : option (list A) :=
  match n with
  | O => Some []
  | S n' =>
      match slice bs off sz with
      | None => None
      | Some b =>
          match dec b, decode_array dec sz bs (off + sz) n' with
          | Some a, Some l => Some (a :: l)
          | _, _ => None
          end
      end
  end.

(** ** The cached headers of an object *)

(** [o->phdr]: NULL, a buffer nothing was read into, or the program headers. *)
Inductive phtab := PhNull | PhGarbage | PhSet (l : list phdr).

(** The fields of struct object_file used here; [x_start] is vma_start, [None] for
    its initial value ~0; all-zero ehdr is the calloc'ed one. *)
Record xobj := { x_start : option Z; x_ehdr : ehdr; x_phdr : phtab }.

Definition ehdr0 : ehdr :=
  {| e_id0 := 0; e_type := 0; e_phoff := 0; e_phentsize := 0; e_phnum := 0 |}.
Definition xobj0 : xobj := {| x_start := None; x_ehdr := ehdr0; x_phdr := PhNull |}.

(** Outcome of a function returning an int: success, a negative value, or undefined
    behaviour (an access outside a buffer, or to a buffer never written). *)
Inductive out := OOk | OErr | OUndef.

(** kpatch_elf.c:70-104.  [buf] is what was read from the start of the file.
    memcpy past the buffer cannot happen: the size was compared; the sum there is
    computed in 64 bits, so it can wrap. *)
Definition set_ehdr (o : xobj) (buf : list Z) : out * xobj :=
  if zlen buf <? EHDR_SIZE then (OOk, o)
  else match slice buf 0 4, decode_ehdr buf with
  | Some mg, Some h =>
      if negb (list_eqb mg [0x7f; 69; 76; 70]) then (OErr, o)
      else
        let o1 := {| x_start := x_start o; x_ehdr := h; x_phdr := x_phdr o |} in
        if negb (e_phentsize h =? PHDR_SIZE) || (e_phnum h <=? 0) then (OErr, o1)
        else if zlen buf <? u64 (e_phoff h + e_phentsize h * e_phnum h) then (OOk, o1)
        else match decode_array decode_phdr PHDR_SIZE buf (e_phoff h)
                     (Z.to_nat (e_phnum h)) with
             | None => (OUndef, o1)
             | Some l => (OOk, {| x_start := x_start o; x_ehdr := h; x_phdr := PhSet l |})
             end
  | _, _ => (OUndef, o)
  end.

(** kpatch_process_mem_read (kpatch_ptrace.c:46-57): all the bytes or failure. *)
Definition mem_read (m : mem) (a n : Z) : option (list Z) := mread m a (Z.to_nat n).

(** kpatch_elf.c:28-68.  [first] is the start of the object's first mapping.
    malloc is assumed to succeed. *)
Definition peek_phdr (m : mem) (first : Z) (o : xobj) : out * xobj :=
  match x_start o with
  | Some _ => (OOk, o)
  | None =>
      let o1 := {| x_start := Some first; x_ehdr := x_ehdr o; x_phdr := x_phdr o |} in
      let hdr :=
        if e_id0 (x_ehdr o) =? 0x7f then Some (x_ehdr o)
        else match mem_read m first EHDR_SIZE with
             | None => None
             | Some bs => decode_ehdr bs
             end in
      match hdr with
      | None => (OErr, o1)
      | Some h =>
          let o2 := {| x_start := Some first; x_ehdr := h; x_phdr := x_phdr o |} in
          if negb (e_id0 (x_ehdr o) =? 0x7f) && (e_phnum h <=? 0) then (OErr, o2)
          else match x_phdr o with
               | PhNull =>
                   match mem_read m (u64 (first + e_phoff h)) (PHDR_SIZE * e_phnum h) with
                   | None => (OErr, {| x_start := Some first; x_ehdr := h;
                                       x_phdr := PhGarbage |})
                   | Some bs =>
                       match decode_array decode_phdr PHDR_SIZE bs 0
                               (Z.to_nat (e_phnum h)) with
                       | None => (OUndef, o2)
                       | Some l => (OOk, {| x_start := Some first; x_ehdr := h;
                                            x_phdr := PhSet l |})
                       end
                   end
               | _ => (OOk, o2)
               end
      end
  end.

(** The headers a later function loops over: [e_phnum] entries of [o->phdr]. *)
Definition phdrs_of (o : xobj) : option (list phdr) :=
  if e_phnum (x_ehdr o) <=? 0 then Some []
  else match x_phdr o with PhSet l => Some l | _ => None end.

(** ** Build id *)

Definition NT_GNU_BUILD_ID := 3.
Definition NOTE_BUF := 128.

Inductive bres := BFound (text : list Z) | BNone | BErr | BUndef | BFuel.

(** printf's %02hhx *)
Definition hex_digit (d : Z) : Z := if d <? 10 then 48 + d else 87 + d.
Fixpoint hex_text (bs : list Z) : list Z :=
  match bs with
  | [] => []
  | b :: r => hex_digit (b / 16) :: hex_digit (b mod 16) :: hex_text r
  end.

Inductive wres := WHit (buf : list Z) | WEnd | WErr | WUndef | WFuel.

(** kpatch_elf.c:128-142, the loop over the notes of one segment. *)
Fixpoint note_walk (m : mem) (start : Z) (fuel : nat) (offset last : Z) : wres :=
  match fuel with
  | O => WFuel
  | S f =>
      if last <=? offset then WEnd
      else match mem_read m (u64 (start + offset)) NOTE_BUF with
           | None => WErr
           | Some buf =>
               match field buf 0 4, field buf 4 4, field buf 8 4, slice buf 12 4 with
               | Some namesz, Some descsz, Some ty, Some nm =>
                   if (namesz =? 4) && list_eqb nm [71; 78; 85; 0]
                      && (ty =? NT_GNU_BUILD_ID)
                   then WHit buf
                   else note_walk m start f
                          (u64 (offset + (u32 (namesz + descsz) + 12))) last
               | _, _, _, _ => WUndef
               end
           end
  end.

(** kpatch_elf.c:118-153.  A segment of at most 128 bytes needs at most 11 rounds
    of the inner loop ([WFuel] only if the file offset wraps around 2^64). *)
Fixpoint find_buildid (m : mem) (start : Z) (phs : list phdr) : bres :=
  match phs with
  | [] => BNone
  | p :: r =>
      if negb (p_type p =? PT_NOTE) then find_buildid m start r
      else if NOTE_BUF <? p_memsz p then find_buildid m start r
      else match note_walk m start 12 (p_offset p) (u64 (p_offset p + p_memsz p)) with
           | WEnd => find_buildid m start r
           | WErr => BErr
           | WUndef => BUndef
           | WFuel => BFuel
           | WHit buf => match slice buf 16 20 with
                         | Some d => BFound (hex_text d)
                         | None => BUndef
                         end
           end
  end.

(** kpatch_elf.c:107-157 *)
Definition look_for_buildid (m : mem) (first : Z) (o : xobj) : bres * xobj :=
  match peek_phdr m first o with
  | (OErr, o') => (BErr, o')
  | (OUndef, o') => (BUndef, o')
  | (OOk, o') =>
      match x_start o', phdrs_of o' with
      | Some s, Some phs => (find_buildid m s phs, o')
      | _, _ => (BUndef, o')
      end
  end.

(** ** Shared library or executable *)

Definition is_prefix (p s : list Z) : bool := list_eqb (firstn (length p) s) p.
(** [strncmp(s + strlen(s) - 3, ".so", 3)]; only reached for names of at least 5. *)
Definition ends_so (s : list Z) : bool :=
  list_eqb (skipn (length s - 3) s) [46; 115; 111].

Definition s_libc_so := [108;105;98;99;46;115;111;46].                   (* libc.so. *)
Definition s_libc_ := [108;105;98;99;45].                                (* libc- *)
Definition s_libpthread_so :=
  [108;105;98;112;116;104;114;101;97;100;46;115;111;46].                 (* libpthread.so. *)
Definition s_libpthread_ := [108;105;98;112;116;104;114;101;97;100;45].  (* libpthread- *)
Definition s_libdl_so := [108;105;98;100;108;46;115;111;46].             (* libdl.so. *)
Definition s_libdl_ := [108;105;98;100;108;45].                          (* libdl- *)

(** kpatch_elf.c:179-199 *)
Definition is_interp_exception (name : list Z) : bool :=
  is_prefix s_libc_so name || (is_prefix s_libc_ name && ends_so name)
  || is_prefix s_libpthread_so name || (is_prefix s_libpthread_ name && ends_so name)
  || is_prefix s_libdl_so name || (is_prefix s_libdl_ name && ends_so name).

(** kpatch_elf.c:201-236 once the headers are known. *)
Definition is_shared_lib (ty : Z) (phs : list phdr) (name : list Z) : bool :=
  if negb (ty =? ET_DYN) then false
  else negb (existsb (fun p => (p_type p =? PT_INTERP) && negb (is_interp_exception name))
                     phs).

(** ** Program headers and mappings *)

Record area := { a_start : Z; a_end : Z; a_prot : Z }.
(** struct obj_vm_area *)
Record ovma := { v_mem : area; v_elf : area; v_disk : area }.
Definition area0 : area := {| a_start := 0; a_end := 0; a_prot := 0 |}.

(** kpatch_elf.c:238-249 *)
Definition prot2flags (prot : Z) : Z :=
  Z.lor (Z.lor (if Z.land prot PROT_READ =? 0 then 0 else PF_R)
               (if Z.land prot PROT_WRITE =? 0 then 0 else PF_W))
        (if Z.land prot PROT_EXEC =? 0 then 0 else PF_X).

(** kpatch_elf.c:252-269 *)
Definition phdr_compare (a b : phdr) : Z :=
  if p_vaddr a <? p_vaddr b then -1
  else if p_vaddr b <? p_vaddr a then 1
  else if p_memsz a <? p_memsz b then 1
  else if p_memsz b <? p_memsz a then -1
  else 0.

(** kpatch_elf.c:274-289 *)
Definition match_ph (pg : Z) (load : Z) (p : phdr) (v : ovma) : bool :=
  let start := u64 (p_vaddr p + load) in
  let stop := u64 (start + p_filesz p) in
  (round_down start pg =? a_start (v_mem v))
  && (round_up stop pg =? a_end (v_mem v))
  && (Z.land (p_flags p) 7 =? prot2flags (a_prot (v_mem v))).

Definition is_load (p : phdr) : bool := p_type p =? PT_LOAD.
Definition is_relro (p : phdr) : bool := p_type p =? PT_GNU_RELRO.

(** kpatch_elf.c:313-326 *)
Definition lowest_vaddr (phs : list phdr) : Z :=
  fold_left (fun low p => if is_load p && (p_vaddr p <? low) then p_vaddr p else low)
            phs (2 ^ 64 - 1).

(** kpatch_elf.c:360-389, the loop over the sorted headers; [prev] is
    maphdrs[i-1].  [None]: one of the two "goto out". *)
Fixpoint split_relro (prev : option phdr) (l : list phdr) : option (list phdr) :=
  match l with
  | [] => Some (match prev with Some q => [q] | None => [] end)
  | p :: r =>
      if is_relro p then
        match prev with
        | None => None
        | Some q =>
            let p' := {| p_type := p_type p; p_flags := Z.land (p_flags p) (Z.lnot PF_W);
                         p_offset := p_offset p; p_vaddr := p_vaddr p;
                         p_filesz := p_filesz p; p_memsz := p_memsz p |} in
            if p_vaddr q =? p_vaddr p then
              let q' := {| p_type := p_type q; p_flags := p_flags q;
                           p_offset := u64 (p_offset q + p_filesz p);
                           p_vaddr := u64 (p_vaddr p + p_memsz p);
                           p_filesz := u64 (p_filesz q - p_filesz p);
                           p_memsz := u64 (p_memsz q - p_memsz p) |} in
              match split_relro (Some p') r with
              | Some l' => Some (q' :: l')
              | None => None
              end
            else None
        end
      else
        match split_relro (Some p) r with
        | Some l' => Some (match prev with Some q => q :: l' | None => l' end)
        | None => None
        end
  end.

(** kpatch_elf.c:414-423 *)
Definition assign (load : Z) (p : phdr) (v : ovma) : ovma :=
  let s := p_vaddr p in let e := u64 (p_vaddr p + p_memsz p) in
  {| v_disk := {| a_start := p_offset p; a_end := u64 (p_offset p + p_filesz p);
                  a_prot := a_prot (v_mem v) |};
     v_elf := {| a_start := s; a_end := e; a_prot := 0 |};
     v_mem := {| a_start := u64 (load + s); a_end := u64 (load + e);
                 a_prot := a_prot (v_mem v) |} |}.

(** kpatch_elf.c:395-431: result code and the mappings, in order. *)
Fixpoint match_vmas (pg load : Z) (maphdrs : list phdr) (vs : list ovma)
    : Z * list ovma :=
  match vs with
  | [] => (0, [])
  | v :: r =>
      if a_prot (v_mem v) =? 0 then
        let (rv, r') := match_vmas pg load maphdrs r in (rv, v :: r')
      else
        match find (fun p => match_ph pg load p v) maphdrs with
        | None => (-1, v :: r)
        | Some p => let (rv, r') := match_vmas pg load maphdrs r in
                    (rv, assign load p v :: r')
        end
  end.

(** A qsort: any function of the comparison and the array. *)
Definition sorter := forall A : Type, (A -> A -> Z) -> list A -> list A.

(** kpatch_elf.c:291-438 once the headers are known ([start] is vma_start): result
    code, load_offset if it was set, mappings.  malloc succeeds. *)
Definition parse_program_header (qs : sorter) (pg start : Z) (phs : list phdr)
    (vs : list ovma) : Z * option Z * list ovma :=
  let low := lowest_vaddr phs in
  if low =? 2 ^ 64 - 1 then (0, None, vs)
  else
    let load := u64 (start - round_down low pg) in
    let maphdrs := qs phdr phdr_compare (filter (fun p => is_load p || is_relro p) phs) in
    match split_relro None maphdrs with
    | None => (0, Some load, vs)
    | Some mh => let (rv, vs') := match_vmas pg load mh vs in (rv, Some load, vs')
    end.

(** kpatch_elf.c:454-466 *)
Definition vaddr2addr (vs : list ovma) (vaddr : Z) : Z :=
  if vaddr =? 0 then 0
  else match find (fun v => (a_start (v_elf v) <=? vaddr) && (vaddr <? a_end (v_elf v))) vs
       with
       | Some v => u64 (vaddr - a_start (v_elf v) + a_start (v_mem v))
       | None => 0
       end.

(** ** Dynamic symbols *)

(** An Elf64_Sym of the patient; [n_name] is its name in the string table, [None]
    if it does not lie inside it. *)
Record dsym := {
  n_off : Z; n_name : option (list Z); n_type : Z; n_shndx : Z; n_value : Z }.

Definition SYM_SIZE := 24.
Definition DYN_SIZE := 16.
Definition DT_STRTAB := 5.
Definition DT_SYMTAB := 6.
Definition DT_STRSZ := 10.
Definition DT_SYMENT := 11.

Definition str_at (strtab : list Z) (off : Z) : option (list Z) :=
  cstr (skipn (Z.to_nat off) strtab).

Definition decode_dsym (strtab bs : list Z) : option dsym :=
  match field bs 0 4, field bs 4 1, field bs 6 2, field bs 8 8 with
  | Some nm, Some info, Some sh, Some v =>
      Some {| n_off := nm; n_name := str_at strtab nm; n_type := Z.land info 0xf;
              n_shndx := sh; n_value := v |}
  | _, _, _, _ => None
  end.

Definition decode_dyn (bs : list Z) : option (Z * Z) :=
  match field bs 0 8, field bs 8 8 with
  | Some t, Some v => Some (t, v)
  | _, _ => None
  end.

Definition undef_dsym (s : dsym) : bool :=
  (n_shndx s =? SHN_UNDEF) || (SHN_LORESERVE <=? n_shndx s).

(** kpatch_elf.c:526-549.  The difference of the name offsets is an unsigned 32-bit
    one converted to int. *)
Definition sym_name_cmp (a b : dsym) : Z :=
  let ta := if undef_dsym a then 1 else 0 in
  let tb := if undef_dsym b then 1 else 0 in
  if negb (ta - tb =? 0) then ta - tb
  else if ta =? 1 then s32 (n_off a - n_off b)
  else match n_name a, n_name b with
       | Some x, Some y => strcmp x y
       | _, _ => 0
       end.

(** kpatch_elf.c:589-610: symtab, strtab and string size; the last entry of each
    tag wins. [None]: a DT_SYMENT other than 24. *)
Fixpoint scan_dyn (ds : list (Z * Z)) (acc : Z * Z * Z) : option (Z * Z * Z) :=
  match ds with
  | [] => Some acc
  | (t, v) :: r =>
      let '(sy, st, sz) := acc in
      if t =? DT_SYMTAB then scan_dyn r (v, st, sz)
      else if t =? DT_STRTAB then scan_dyn r (sy, v, sz)
      else if t =? DT_STRSZ then scan_dyn r (sy, st, v)
      else if t =? DT_SYMENT then if v =? SYM_SIZE then scan_dyn r acc else None
      else scan_dyn r acc
  end.

(** kpatch_elf.c:648-653: the prefix of symbols before the first undefined one. *)
Fixpoint defined_prefix (l : list dsym) : list dsym :=
  match l with
  | [] => []
  | s :: r => if undef_dsym s then [] else s :: defined_prefix r
  end.

(** kpatch_elf.c:551-665 with the headers known and nothing loaded before;
    malloc succeeds.  [riscv] selects the #ifdef of lines 621-629.  Result: the
    symbols [0 .. ndynsyms).  A defined symbol whose name is not inside the string
    table makes strcmp run out of the buffer.  Caching ([o->dynsyms]) is not
    modelled: the patient is stopped, so a second read gives the same. *)
Definition load_dynsym (qs : sorter) (riscv : bool) (m : mem) (load : Z)
    (phs : list phdr) : res (list dsym) :=
  match find (fun p => p_type p =? PT_DYNAMIC) phs with
  | None => RErr
  | Some p =>
      match mem_read m (u64 (load + p_vaddr p)) (p_memsz p) with
      | None => RErr
      | Some db =>
          match decode_array decode_dyn DYN_SIZE db 0
                  (Z.to_nat (p_memsz p / DYN_SIZE)) with
          | None => RUndef
          | Some ds =>
              match scan_dyn ds (0, 0, 0) with
              | None => RErr
              | Some (symtab, strtab, strsz) =>
                  let symsz := u64 (strtab - symtab) in
                  let total := u64 (strsz + symsz) in
                  let at_ := if riscv then u64 (symtab + load) else symtab in
                  match mem_read m at_ total with
                  | None => RErr
                  | Some buf =>
                      match slice buf symsz (total - symsz) with
                      | None => RUndef
                      | Some strs =>
                          match decode_array (decode_dsym strs) SYM_SIZE buf 0
                                  (Z.to_nat (symsz / SYM_SIZE)) with
                          | None => RUndef
                          | Some syms =>
                              if forallb (fun s => undef_dsym s
                                   || match n_name s with Some _ => true | None => false end)
                                   syms
                              then ROk (defined_prefix (qs dsym sym_name_cmp syms))
                              else RUndef
                          end
                      end
                  end
              end
          end
      end
  end.

(** bsearch(3) as in glibc (bits/stdlib-bsearch.h), with bsearch_strcmp
    (kpatch_elf.c:668-675): the index found.  Fuel: the interval shrinks. *)
Fixpoint bsearch (fuel : nat) (key : list Z) (l : list dsym) (lo hi : nat) : option nat :=
  match fuel with
  | O => None
  | S f =>
      if (lo <? hi)%nat then
        let mid := Nat.div2 (lo + hi) in
        match nth_error l mid with
        | Some s =>
            match n_name s with
            | Some nm =>
                let c := strcmp key nm in
                if c <? 0 then bsearch f key l lo mid
                else if 0 <? c then bsearch f key l (S mid) hi
                else Some mid
            | None => None
            end
        | None => None
        end
      else None
  end.

(** kpatch_elf.c:677-699: type and value of the symbol. *)
Definition resolve_single (syms : res (list dsym)) (sname : list Z) : res (Z * Z) :=
  match syms with
  | RErr => RErr
  | RUndef => RUndef
  | ROk l =>
      match bsearch (S (length l)) sname l 0 (length l) with
      | None => RErr
      | Some n => match nth_error l n with
                  | Some s => ROk (n_type s, n_value s)
                  | None => RUndef
                  end
      end
  end.

(** An object of the process as the symbol resolver sees it. *)
Record lib := { l_shared : bool; l_syms : res (list dsym); l_vmas : list ovma }.

(** The name up to a version suffix (kpatch_elf.c:710-713).  Simplified: the C code
    cuts the patch's string table in place. *)
Fixpoint cut_at (s : list Z) : list Z :=
  match s with
  | [] => []
  | c :: r => if c =? 64 then [] else c :: cut_at r
  end.

(** kpatch_elf.c:719-738; [ifunc] is kpatch_arch_ptrace_resolve_ifunc: the address
    the resolver function at the given address returns, if it could be run. *)
Fixpoint resolve_loop (ifunc : Z -> option Z) (libs : list lib) (name : list Z) : res Z :=
  match libs with
  | [] => ROk 0
  | o :: r =>
      if negb (l_shared o) then resolve_loop ifunc r name
      else match resolve_single (l_syms o) name with
           | RErr => resolve_loop ifunc r name
           | RUndef => RUndef
           | ROk (ty, v) =>
               let a := vaddr2addr (l_vmas o) v in
               if ty =? STT_GNU_IFUNC then
                 match ifunc a with None => ROk 0 | Some a' => ROk a' end
               else ROk a
           end
  end.

(** kpatch_elf.c:701-740; 0 is "not found". *)
Definition resolve_undefined (ifunc : Z -> option Z) (libs : list lib) (sname : list Z)
    : res Z := resolve_loop ifunc libs (cut_at sname).

(** ** The jump table *)

Inductive arch := X86 | A64 | RV | LA.

(** include/kpatch_elf.h:34-51: sizes of the header and of an entry. *)
Definition JT_HDR := 16.
Definition jt_entry_size (a : arch) : Z :=
  match a with X86 | A64 => 16 | RV | LA => 24 end.

(** The table: cur_entry, max_entry, and the addresses of the entries filled. *)
Record jtab := { j_max : Z; j_addrs : list Z }.
Definition j_cur (t : jtab) : Z := zlen (j_addrs t).

(** kpatch_elf.c:468-482 *)
Definition new_jmp_table (entries : Z) : jtab := {| j_max := entries; j_addrs := [] |}.
(** The size malloc'ed and written to the patient (jtbl->size). *)
Definition jt_size (a : arch) (t : jtab) : Z := JT_HDR + j_max t * jt_entry_size a.

(** Bytes of one entry: arch/x86/arch_elf.c:122-126, arch/aarch64/arch_elf.c:243-246,
    arch/riscv64/arch_elf.c:283-294, arch/loongarch64/arch_elf.c:230-241.  [pad] is
    what the upper half of jmp1, never written, holds. *)
Definition jt_entry (a : arch) (pad : list Z) (addr : Z) : list Z :=
  match a with
  | X86 => le_bytes 8 0x90900000000225ff ++ le_bytes 8 addr
  | A64 => le_bytes 8 0xd61f022058000051 ++ le_bytes 8 addr
  | RV => le_bytes 4 0x00000f97 ++ le_bytes 4 0x010fbf83 ++ le_bytes 4 0x000f8067
          ++ pad ++ le_bytes 8 addr
  | LA => le_bytes 4 0x1c00000f ++ le_bytes 4 0x28c041ef ++ le_bytes 4 0x4c0001ed
          ++ pad ++ le_bytes 8 addr
  end.

(** The table as stored: size, cur_entry, max_entry, padding, entries, and zeroes
    for the entries not filled (kpatch_elf.c:478). *)
Definition jt_bytes (a : arch) (pad : list Z) (t : jtab) : list Z :=
  le_bytes 4 (jt_size a t) ++ le_bytes 4 (j_cur t) ++ le_bytes 4 (j_max t)
  ++ le_bytes 4 0 ++ flat_map (jt_entry a pad) (j_addrs t)
  ++ repeat 0 (Z.to_nat ((j_max t - j_cur t) * jt_entry_size a)).

(** kpatch_arch_add_jmp_entry (arch/x86/arch_elf.c:123-140 and the other three):
    address of the slot in the patient, 0 on failure.  [base] is
    kpta + jmp_offset. *)
Definition add_jmp_entry (a : arch) (base : Z) (t : option jtab) (addr : Z)
    : Z * option jtab :=
  match t with
  | None => (0, None)
  | Some t =>
      if j_max t <=? j_cur t then (0, Some t)
      else (u64 (base + JT_HDR + j_cur t * jt_entry_size a),
            Some {| j_max := j_max t; j_addrs := j_addrs t ++ [addr] |})
  end.

(** kpatch_elf.c:490-524: symbols [1 ..) of the table. *)
Definition wants_slot (s : sym) : bool :=
  (y_shndx s =? SHN_UNDEF) && (y_bind s =? STB_GLOBAL).
Definition count_undefined (syms : list sym) : Z := zlen (filter wants_slot (tl syms)).

(** kpatch_patch.c:366-374 *)
Definition make_table (syms : list sym) : option jtab :=
  let undef := count_undefined syms in
  if undef =? 0 then None else Some (new_jmp_table undef).

(** [shdr[idx].sh_addr] *)
Definition sh_addr_of (shdrs : list shdr) (idx : Z) : option Z :=
  match nth_error shdrs (Z.to_nat idx) with Some h => Some (h_addr h) | None => None end.

Definition set_value (s : sym) (v : Z) : sym :=
  {| y_name := y_name s; y_value := v; y_size := y_size s; y_shndx := y_shndx s;
     y_type := y_type s; y_bind := y_bind s |}.
Definition set_value_size (s : sym) (v n : Z) : sym :=
  {| y_name := y_name s; y_value := v; y_size := n; y_shndx := y_shndx s;
     y_type := y_type s; y_bind := y_bind s |}.

(** kpatch_elf.c:742-814; [resolve] is kpatch_resolve_undefined for the object's
    process. *)
Definition symbol_resolve (a : arch) (base : Z) (resolve : list Z -> res Z)
    (shdrs : list shdr) (t : option jtab) (s : sym) : res (sym * option jtab) :=
  let ty := y_type s in
  let add_section :=
    match sh_addr_of shdrs (y_shndx s) with
    | Some ad => ROk (set_value s (u64 (y_value s + ad)), t)
    | None => RUndef
    end in
  if ty =? STT_SECTION then
    match sh_addr_of shdrs (y_shndx s) with
    | Some ad => ROk (set_value s ad, t)
    | None => RUndef
    end
  else if (ty =? STT_FUNC) || (ty =? STT_OBJECT) then
    if wants_slot s then
      match resolve (y_name s) with
      | RErr => RErr
      | RUndef => RUndef
      | ROk uaddr =>
          if uaddr =? 0 then RErr
          else let (v, t') := add_jmp_entry a base t uaddr in
               if v =? 0 then RErr
               else ROk (set_value_size s v uaddr, t')
      end
    else add_section
  else if ty =? STT_TLS then ROk (s, t)
  else if ty =? STT_NOTYPE then add_section
  else RErr.

Fixpoint resolve_symbols (a : arch) (base : Z) (resolve : list Z -> res Z)
    (shdrs : list shdr) (t : option jtab) (syms : list sym) : res (list sym * option jtab) :=
  match syms with
  | [] => ROk ([], t)
  | s :: r =>
      match symbol_resolve a base resolve shdrs t s with
      | RErr => RErr
      | RUndef => RUndef
      | ROk (s', t') =>
          match resolve_symbols a base resolve shdrs t' r with
          | ROk (r', t'') => ROk (s' :: r', t'')
          | e => e
          end
      end
  end.

Definition set_addr (h : shdr) (v : Z) : shdr :=
  {| h_name := h_name h; h_type := h_type h; h_addr := v; h_offset := h_offset h;
     h_size := h_size h; h_info := h_info h; h_relas := h_relas h |}.

(** kpatch_elf.c:830-851: one section; [elf] is kpta + elf_offset. *)
Definition place_section (elf load : Z) (h : shdr) : shdr :=
  if negb (h_type h =? SHT_NOBITS) then set_addr h (u64 (elf + h_offset h))
  else if h_addr h =? 0 then h
  else set_addr h (u64 (h_addr h + load)).

(** kpatch_elf.c:816-871.  [base] is kpta + jmp_offset.  Header 0 and symbol 0 are
    left alone.  One symbol table. *)
Definition kpatch_resolve (a : arch) (elf base load : Z) (resolve : list Z -> res Z)
    (shdrs : list shdr) (t : option jtab) (syms : list sym)
    : res (list shdr * list sym * option jtab) :=
  match shdrs with
  | [] => RErr
  | h0 :: hs =>
      let hs' := map (place_section elf load) hs in
      if existsb (fun h => h_type h =? SHT_SYMTAB) hs then
        match syms with
        | [] => ROk (h0 :: hs', [], t)
        | s0 :: ss =>
            match resolve_symbols a base resolve (h0 :: hs') t ss with
            | ROk (ss', t') => ROk (h0 :: hs', s0 :: ss', t')
            | RErr => RErr
            | RUndef => RUndef
            end
        end
      else RErr
  end.
