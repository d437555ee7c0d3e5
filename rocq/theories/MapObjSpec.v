(** What it means that a process has a file loaded, said with the ELF format and the memory
    only; nothing about how libcareplus works. *)
From Verif Require Import Base RelocModel.
From Verif Require Import ElfModel ElfSpec ElfDyn.
From Verif Require ProcModel.

(** The file of header [h] and program headers [raws] (with the two fields nobody looks at)
    starts at [a] of memory [m]. *)
Definition file_at (m : mem) (a : Z) (h : rawehdr) (raws : list (phdr * (Z * Z))) : Prop :=
  rawehdr_ok h /\ i_phnum h = zlen raws /\ Forall (fun x => phdr_ok (fst x)) raws /\
  0 <= a /\ a + i_phoff h + 56 * zlen raws < 2 ^ 64 /\
  holds m a (enc_ehdr h) /\ holds m (a + i_phoff h) (flat_map enc_phdr raws).

(** The area of a mapping *)
Definition area_of (v : ProcModel.vma) : area :=
  {| a_start := ProcModel.v_start v; a_end := ProcModel.v_end v; a_prot := ProcModel.v_prot v |}.

(** [low] is the lowest of the segments to load. *)
Definition lowest_load (phs : list phdr) (low : phdr) : Prop :=
  In low phs /\ p_type low = 1 /\ p_vaddr low < 2 ^ 64 - 1 /\
  forall q, In q phs -> p_type q = 1 -> p_vaddr low <= p_vaddr q.

(** The areas [vs] are the file of [h] and [raws] loaded with the bias [bias]: they begin
    with the page of the lowest segment, where the headers are, and each is the pages of a
    segment or not accessible. *)
Record loaded (pg : Z) (m : mem) (vs : list ProcModel.vma) (h : rawehdr) (raws : list (phdr * (Z * Z))) (bias : Z) : Prop := {
  ld_first : exists v r low, vs = v :: r /\ file_at m (ProcModel.v_start v) h raws /\
               lowest_load (map fst raws) low /\
               ProcModel.v_start v = (bias + p_vaddr low / pg * pg) mod 2 ^ 64;
  ld_bias : 0 <= bias < 2 ^ 64;
  ld_regular : regular (map fst raws);
  ld_prot : Forall (fun v => 0 <= ProcModel.v_prot v < 8) vs;
  ld_areas : Forall (fun v => ProcModel.v_prot v = 0 \/
               exists g, piece (map fst raws) g /\ is_mapping_of pg bias g (area_of v)) vs }.

(** No two segments have the same pages with the same access. *)
Definition apart (pg bias : Z) (phs : list phdr) : Prop :=
  forall g g' a, piece phs g -> piece phs g' -> is_mapping_of pg bias g a -> is_mapping_of pg bias g' a -> g = g'.

(** The address [v] of the file is in memory: in a segment some accessible area is of. *)
Definition mapped_address (pg : Z) (vs : list ProcModel.vma) (phs : list phdr) (bias v : Z) : Prop :=
  exists g w, piece phs g /\ In w vs /\ ProcModel.v_prot w <> 0 /\ is_mapping_of pg bias g (area_of w) /\
              g_vaddr g <= v < g_vaddr g + g_memsz g.

(** "libc", "libpthread", "libdl" followed by ".so." or "-....so" *)
Definition glibc_file (name : list Z) : Prop :=
  exists stem, In stem [[108;105;98;99]; [108;105;98;112;116;104;114;101;97;100]; [108;105;98;100;108]] /\
  ((exists r, name = stem ++ [46;115;111;46] ++ r) \/
   (exists r, name = stem ++ [45] ++ r /\ exists q, name = q ++ [46;115;111])).

(** A shared library: ET_DYN, and no program interpreter except for the libraries of the C
    library that can be run. *)
Definition shared_library (h : rawehdr) (phs : list phdr) (name : list Z) : Prop :=
  i_type h = 3 /\ ((forall p, In p phs -> p_type p <> 3) \/ glibc_file name).

(** A file loaded in the process: header, program headers, bias, and its dynamic symbols with
    their string table. *)
Record image := { im_h : rawehdr; im_raws : list (phdr * (Z * Z)); im_bias : Z; im_syms : list rawsym; im_strs : list Z }.
Definition im_phs (i : image) : list phdr := map fst (im_raws i).
(** Object [o] of the process, with the areas of the memory map, is the file [i] (name, kind
    and areas): neither a pseudo-file of the kernel, nor data; loaded as its headers say; its
    first 1024 bytes can be read; and if it is a library its dynamic section names its
    tables (see [dyn_table]). *)
Definition image_ok (pg : Z) (riscv : bool) (m : mem) (o : ProcModel.pobj) (i : image) : Prop :=
  ProcModel.is_kernel_name (ProcModel.po_name o) = false /\ ProcModel.po_elf o = true /\
  (exists v r, ProcModel.po_vmas o = v :: r /\ mread m (ProcModel.v_start v) 1024 <> None) /\
  loaded pg m (ProcModel.po_vmas o) (im_h i) (im_raws i) (im_bias i) /\ apart pg (im_bias i) (im_phs i) /\
  (shared_library (im_h i) (im_phs i) (ProcModel.po_name o) ->
   exists p ds symtab, dyn_table riscv m (im_bias i) (im_phs i) (im_syms i) (im_strs i) p ds symtab).
