(** Free gaps of the patient's address space and the choice of the place for a
    patch. *)
From Verif Require Import Base.

(** struct vm_hole (include/kpatch_process.h): [hid] stands for the address of the
    structure, by which objects refer to a gap. *)
Record hole := { hid : nat; hs : Z; he : Z }.

(** kpatch_process_parse_proc_maps, kpatch_process.c:480-579, the part that builds
    the list of gaps (lines 489, 535-546; process_add_vm_hole 404-422 appends at the
    end of the list).  [maps]: start and end of each line of /proc/pid/maps in
    order; [prev]: hole_start; [fresh]: number of gaps so far.  Simplification:
    reading and scanning the text of the lines, and malloc failures (which make the
    whole function fail), are not modelled. *)
Fixpoint gaps (pg prev : Z) (fresh : nat) (maps : list (Z * Z)) : list hole :=
  match maps with
  | [] => []
  | (s, e) :: r =>
      if 2 * pg <? u64 (s - prev)
      then {| hid := fresh; hs := u64 (prev + pg); he := u64 (s - pg) |} :: gaps pg e (S fresh) r
      else gaps pg e fresh r
  end.

(** The value of the variable [hole] when each mapping is added to its object
    (kpatch_process.c:536-552): the last gap created, if any. *)
Fixpoint prev_ids (pg prev : Z) (fresh : nat) (cur : option nat) (maps : list (Z * Z)) : list (option nat) :=
  match maps with
  | [] => []
  | (s, e) :: r =>
      if 2 * pg <? u64 (s - prev)
      then Some fresh :: prev_ids pg e (S fresh) (Some fresh) r
      else cur :: prev_ids pg e fresh cur r
  end.

(** object_add_vm_area, kpatch_process.c:97-117, lines 104-105: o->previous_hole is
    the first gap pointer that is not NULL among those passed with the object's
    mappings. *)
Fixpoint previous_hole (ids : list (option nat)) : option nat :=
  match ids with
  | [] => None
  | Some i :: _ => Some i
  | None :: r => previous_hole r
  end.

(** hole_size, kpatch_process.c:1080-1086 *)
Definition hole_size (h : hole) : Z := u64 (he h - hs h).

(** next_hole and prev_hole, kpatch_process.c:1062-1078: the list seen from the gap
    [id]; the gaps before it (nearest first), the gap, the gaps after it. *)
Fixpoint around (before : list hole) (id : nat) (l : list hole) : option (list hole * hole * list hole) :=
  match l with
  | [] => None
  | h :: r => if Nat.eqb (hid h) id then Some (before, h, r) else around (h :: before) id r
  end.

Section Search.
(** [pg] page size; [maxd]: max_distance after line 66/67 [max_distance -= memsize];
    [os] start of the object's first mapping, [oe] end of its last. *)
Variables pg maxd os oe sz : Z.

(** The loop of object_find_patch_region, arch/x86/arch_process.c:68-101 (the other
    architectures differ in the initial max_distance only).  [L]: left_hole and the
    gaps before it, nearest first; [R]: right_hole and the gaps after it; an empty
    list is NULL.  Result: region_start, region_end, the gap. *)
Fixpoint walk (L R : list hole) : option (Z * Z * hole) :=
  match L, R with
  | l :: L', r :: R' =>
      let far_right := maxd <? u64 (hs r - os) in
      if negb far_right && (sz <? hole_size r)
      then Some (hs r,
                 (if u64 (he r - os) <=? maxd then u64 (he r - sz) else u64 (os + maxd)),
                 r)
      else
        let R1 := if far_right then [] else R' in
        if maxd <? u64 (oe - he l) then None
        else if sz <? hole_size l
        then Some ((if u64 (oe - hs l) <=? maxd then hs l
                    else if maxd <? oe then u64 (oe - maxd) else 0),
                   u64 (he l - sz),
                   l)
        else walk L' R1
  | _, _ => None
  end.
End Search.

(** object_find_patch_region, arch/x86/arch_process.c:47-113,
    arch/aarch64/arch_process.c:47-114, arch/riscv64/arch_process.c:47-113,
    arch/loongarch64/arch_process.c:42-104.  [D] the initial max_distance.  Returns
    the address (2^64 - 1 for failure, line 106) and the gap.  [>> PAGE_SHIFT <<
    PAGE_SHIFT] with PAGE_SHIFT the binary logarithm of the page size
    (include/kpatch_common.h:44-53). *)
Definition find_region (pg D : Z) (holes : list hole) (prev : option nat) (os oe sz : Z)
  : Z * option hole :=
  match match prev with None => None | Some id => around [] id holes end with
  | None => (2 ^ 64 - 1, None)
  | Some (before, p, after) =>
      match walk (u64 (D - sz)) os oe sz (p :: before) after with
      | None => (2 ^ 64 - 1, None)
      | Some (rs, re, h) =>
          if rs =? re then (2 ^ 64 - 1, Some h)
          else (Z.shiftl (Z.shiftr rs (Z.log2 pg)) (Z.log2 pg), Some h)
      end
  end.

(** vm_hole_split, kpatch_process.c:1031-1060; [list_add] puts the new element before
    its second argument (include/list.h:70-73).  [fresh]: identity of the new
    element. *)
Definition split_hole (pg : Z) (fresh : nat) (h : hole) (alloc_start alloc_end : Z) : list hole :=
  let a := u64 (round_down alloc_start pg - pg) in
  let b := u64 (round_up alloc_end pg + pg) in
  (if hs h <? a then [{| hid := fresh; hs := hs h; he := a |}] else [])
  ++ [{| hid := hid h; hs := b; he := if b <? he h then he h else b |}].

Definition replace_hole (id : nat) (new : list hole) (l : list hole) : list hole :=
  flat_map (fun h => if Nat.eqb (hid h) id then new else [h]) l.

(** Maximum jump distances: x86 54, aarch64 55, riscv64 54, loongarch64 49 (line
    numbers in arch/*/arch_process.c). *)
Definition dist_x86 : Z := 0x80000000.
Definition dist_aarch64 : Z := 0x8000000.
Definition dist_riscv64 : Z := 0x80000000.
Definition dist_loongarch64 : Z := 0x80000000.

(** A process being patched: its gaps, how many gap structures were allocated, the
    ranges in use (its own mappings and the patches placed so far; not a variable of
    the code). *)
Record space := { sp_holes : list hole; sp_fresh : nat; sp_used : list (Z * Z) }.

(** One call of kpatch_object_allocate_patch for an object (kpatch_process.c:1088-1116). *)
Record request := { rq_prev : option nat; rq_os : Z; rq_oe : Z; rq_sz : Z; rq_mmap_ok : bool }.

(** Returns the address of the region, [None] when the function fails.  MAP_FIXED
    replaces whatever was mapped in the range.  mmap fails when told so or when the
    address is not page aligned (kernel).  Simplification: failure of malloc in
    vm_hole_split, after which the whole run is given up, is not modelled here (see
    EngineModel.allocate_patch). *)
Definition place (pg D : Z) (sp : space) (r : request) : option Z * space :=
  let '(addr, h) := find_region pg D (sp_holes sp) (rq_prev r) (rq_os r) (rq_oe r) (rq_sz r) in
  if addr =? 0 then (None, sp)
  else if negb (rq_mmap_ok r && (addr mod pg =? 0)) then (None, sp)
  else
    match h with
    | None => (None, sp)       (* not reached: address -1 is not page aligned *)
    | Some h =>
        (Some addr,
         {| sp_holes := replace_hole (hid h) (split_hole pg (sp_fresh sp) h addr (u64 (addr + rq_sz r)))
                          (sp_holes sp);
            sp_fresh := S (sp_fresh sp);
            sp_used := (addr, addr + rq_sz r) :: sp_used sp |})
    end.
