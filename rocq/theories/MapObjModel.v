(** The objects of a process with their segments: kpatch_process_map_object_files and
    object_map_elf_segments (/repo/src/kpatch_process.c), from the text of the memory map and
    the memory.  Definitions only. *)
From Verif Require Import Base RelocModel.
From Verif Require MapsModel ProcModel ElfModel.
Import ElfModel.

(** What the first 1024 bytes of an area are, kpatch_process.c:204-209 *)
Definition read_header (m : mem) (a : Z) : option (list Z) := mem_read m a 1024.

(** kpatch_elf_object_set_ehdr accepts the header, kpatch_process.c:278-285.  Simplified: a
    copy from behind the buffer counts here as accepted; [elf_object] below finds it. *)
Definition ehdr_ok (buf : list Z) : bool := match fst (set_ehdr xobj0 buf) with OErr => false | _ => true end.
(** The object as it is after process_add_object_vma: its fields of kpatch_elf.c *)
Definition elf_object (m : mem) (start : Z) : out * xobj :=
  match read_header m start with Some buf => set_ehdr xobj0 buf | None => (OOk, xobj0) end.

(** kpatch_get_buildid, kpatch_elf.c:160-177, of the object whose first area starts at [start].
    The search of notes is the same whether the headers were read before or not. *)
Definition build_id (m : mem) (start : Z) : option (list Z) :=
  match fst (look_for_buildid m start (snd (elf_object m start))) with BFound t => Some t | _ => None end.

(** struct object_file with the fields object_map_elf_segments sets; load_offset is 0 until
    it is set. *)
Record mobj := { mo_obj : ProcModel.pobj; mo_x : xobj; mo_shared : bool; mo_load : Z; mo_areas : list ovma }.
Definition fresh_area (v : ProcModel.vma) : ovma :=
  {| v_mem := {| a_start := ProcModel.v_start v; a_end := ProcModel.v_end v; a_prot := ProcModel.v_prot v |};
     v_elf := area0; v_disk := area0 |}.
Definition unmapped (o : ProcModel.pobj) : mobj :=
  {| mo_obj := o; mo_x := xobj0; mo_shared := false; mo_load := 0; mo_areas := map fresh_area (ProcModel.po_vmas o) |}.

Inductive mapres (A : Type) := MapOk (x : A) | MapErr | MapUndef.
Arguments MapOk {A} x.  Arguments MapErr {A}.  Arguments MapUndef {A}.

(** object_map_elf_segments, kpatch_process.c:291-323; the headers are read once
    (kpatch_elf_object_is_shared_lib), the second call of elf_object_peek_phdr returns at
    once. *)
Definition map_elf_segments (qs : sorter) (pg : Z) (m : mem) (o : ProcModel.pobj) : mapres mobj :=
  if ProcModel.is_kernel_name (ProcModel.po_name o) then MapOk (unmapped o)
  else if negb (ProcModel.po_elf o) then MapOk (unmapped o)
  else match ProcModel.po_vmas o with
  | [] => MapUndef
  | v :: _ =>
      let first := ProcModel.v_start v in
      match elf_object m first with
      | (OOk, x0) =>
          match peek_phdr m first x0 with
          | (OErr, _) => MapErr
          | (OUndef, _) => MapUndef
          | (OOk, x) =>
              match phdrs_of x with
              | None => MapUndef
              | Some phs =>
                  let '(rv, load, vs) := parse_program_header qs pg first phs (map fresh_area (ProcModel.po_vmas o)) in
                  if rv <? 0 then MapErr
                  else MapOk {| mo_obj := o; mo_x := x;
                                mo_shared := is_shared_lib (e_type (x_ehdr x)) phs (ProcModel.po_name o);
                                mo_load := match load with Some l => l | None => 0 end; mo_areas := vs |}
              end
          end
      | _ => MapUndef
      end
  end.

(** The loop, kpatch_process.c:592-596 *)
Fixpoint map_objects (qs : sorter) (pg : Z) (m : mem) (os : list ProcModel.pobj) : mapres (list mobj) :=
  match os with
  | [] => MapOk []
  | o :: r => match map_elf_segments qs pg m o with
              | MapOk x => match map_objects qs pg m r with MapOk l => MapOk (x :: l) | MapErr => MapErr | MapUndef => MapUndef end
              | MapErr => MapErr
              | MapUndef => MapUndef
              end
  end.

(** kpatch_process_map_object_files, kpatch_process.c:581-603, with
    kpatch_process_parse_proc_maps 480-579: the objects with their segments, the objects with
    the patches they have, and the number of patches found.  Simplified: dup, lseek and
    fdopen succeed.  The two lists are the same objects: the first pass does not look at the
    patches, the second (kpatch_process_associate_patches) does not look at the segments. *)
Definition map_object_files (qs : sorter) (pg : Z) (m : mem) (text : list Z) (pid : option (list Z))
  : mapres (list mobj * list ProcModel.pobj * Z) :=
  match MapsModel.read_maps text with
  | MapsModel.MErr => MapErr
  | MapsModel.MUndef => MapUndef
  | MapsModel.MOk ls =>
      match ProcModel.parse_maps (read_header m) ehdr_ok (build_id m) [] (map fst ls) with
      | ProcModel.PErr => MapErr
      | ProcModel.PBad => MapUndef
      | ProcModel.POk os =>
          match ProcModel.libc_base (read_header m) (map fst ls) with
          | None => MapErr
          | Some _ =>
              match map_objects qs pg m os with
              | MapErr => MapErr
              | MapUndef => MapUndef
              | MapOk mos => match ProcModel.associate pid os with
                             | None => MapErr
                             | Some (os', n) => MapOk (mos, os', n)
                             end
              end
          end
      end
  end.

(** The objects as kpatch_resolve_undefined sees them, kpatch_elf.c:701-740 *)
Definition lib_of (qs : sorter) (riscv : bool) (m : mem) (o : mobj) : lib :=
  {| l_shared := mo_shared o;
     l_syms := match phdrs_of (mo_x o) with Some phs => load_dynsym qs riscv m (mo_load o) phs | None => RErr end;
     l_vmas := mo_areas o |}.
Definition resolve_in (qs : sorter) (riscv : bool) (m : mem) (ifunc : Z -> option Z) (os : list mobj) (sname : list Z) : res Z :=
  resolve_undefined ifunc (map (lib_of qs riscv m) os) sname.
