(** Applying and cancelling a patch of one object, and of all objects of a
    process: kpatch_patch.c and the parts of the other files it calls. *)
From Verif Require Import Base RemoteModel JumpModel.

(** ** struct kpatch_info (include/kpatch_file.h:199-208), 48 bytes. *)
Definition info_size : Z := 48.
Record info := { daddr : Z; saddr : Z; dlen : Z; slen : Z; flags : Z }.
(** Fields [symstr], [vaddr] and [pad] are not used by the code modelled here. *)
Definition field (bs : list Z) (off n : nat) : Z := le_val (firstn n (skipn off bs)).
Definition info_of (bs : list Z) : info :=
  {| daddr := field bs 0 8; saddr := field bs 8 8; dlen := field bs 16 4;
     slen := field bs 20 4; flags := field bs 40 4 |}.
Definition zinfo : info := {| daddr := 0; saddr := 0; dlen := 0; slen := 0; flags := 0 |}.
(** include/kpatch_file.h:251-264 *)
Definition is_end_info (i : info) : bool :=
  (daddr i =? 0) && (dlen i =? 0) && (saddr i =? 0) && (slen i =? 0).
Definition is_new_func (i : info) : bool := (daddr i =? 0) && (dlen i =? 0).

(** PATCH_APPLIED, bit 31 of [flags]; arch_patch.c of each architecture (x86: 36) *)
Definition applied_bit : Z := 2 ^ 31.
Definition is_applied (i : info) : bool := negb (Z.land (flags i) applied_bit =? 0).
Definition mark_applied (i : info) : info :=
  {| daddr := daddr i; saddr := saddr i; dlen := dlen i; slen := slen i;
     flags := Z.lor (flags i) applied_bit |}.

(** The [n] entries at offset [off] of an image. *)
Fixpoint infos_of (bs : list Z) (off : Z) (n : nat) : list info :=
  match n with
  | O => []
  | S n' => info_of (skipn (Z.to_nat off) bs) :: infos_of bs (off + info_size) n'
  end.

(** ** struct kpatch_file (include/kpatch_file.h:130-180), 504 bytes. *)
Definition hdr_size : Z := 504.
Definition h_id : nat := 8.              (* char id[8] *)
Definition h_buildid : nat := 88.        (* char buildid[41] *)
Definition h_total_size : nat := 160.    (* uint32_t *)
Definition h_jmp_offset : nat := 164.    (* uint32_t *)
Definition h_elf_offset : nat := 168.    (* uint32_t *)
Definition h_total_mem : nat := 176.     (* uint64_t kpatch_total_mem_sz *)
Definition h_user_undo : nat := 184.     (* uint32_t *)
Definition h_user_info : nat := 188.     (* uint32_t *)
Definition get32 (h : list Z) (off : nat) : Z := field h off 4.
Definition get64 (h : list Z) (off : nat) : Z := field h off 8.
Definition put (h : list Z) (off : nat) (bs : list Z) : list Z :=
  firstn off h ++ bs ++ skipn (off + length bs) h.
Definition set32 (h : list Z) (off : nat) (x : Z) : list Z := put h off (le_bytes 4 x).
Definition set64 (h : list Z) (off : nat) (x : Z) : list Z := put h off (le_bytes 8 x).

(** C strings of the header.  [strcmp] on [char *] reads up to the first NUL. *)
Definition hdr_str (h : list Z) (off : nat) : option (list Z) := cstr (skipn off h).
Definition str_same (a b : option (list Z)) : bool :=
  match a, b with Some x, Some y => list_eqb x y | _, _ => false end.
(** include/kpatch_file.h:101, "KPATCH1" *)
Definition magic : list Z := [75; 80; 65; 84; 67; 72; 49].

(** ** A patch file as the engine sees it.
    [p_hdr] its header; [p_info] offset and number of entries of .kpatch.info
    (kpatch_elf_load_kpatch_info, kpatch_elf.c:899-927; [None] when the section
    is missing); [p_infos0] the entries before linking; [p_data_off] the offset of
    .kpatch.data or 0 (kpatch_elf.c:929-952); [p_undef] the number of undefined
    symbols (kpatch_elf.c:490-524); [p_link kpta hdr]: kpatch_resolve and
    kpatch_relocate (kpatch_elf.c:816-897), giving the linked image and the jump
    table, or failing.  Simplification: linking is an arbitrary function here; it
    is modelled in the relocation files. *)
Record patch := {
  p_hdr : list Z;
  p_info : option (Z * nat);
  p_infos0 : list info;
  p_data_off : Z;
  p_undef : Z;
  p_link : Z -> list Z -> option (list Z * list Z) }.

(** ** struct object_file (include/kpatch_process.h:60-147), the fields used. *)
Record obj := {
  o_patch : option patch;        (* skpfile, NULL when the store has no patch *)
  o_is_patch : bool;             (* is_patch *)
  o_applied : list (list Z);     (* headers of the patches already applied *)
  o_hdr : option (list Z);       (* kpfile.patch *)
  o_info : option (list info);   (* info, ninfo *)
  o_kpta : Z;                    (* kpta *)
  o_find : Z -> Z }.             (* object_find_patch_region, modelled in HoleModel.v *)

Definition with_hdr (o : obj) (h : list Z) : obj :=
  {| o_patch := o_patch o; o_is_patch := o_is_patch o; o_applied := o_applied o;
     o_hdr := Some h; o_info := o_info o; o_kpta := o_kpta o; o_find := o_find o |}.
Definition with_info (o : obj) (l : list info) : obj :=
  {| o_patch := o_patch o; o_is_patch := o_is_patch o; o_applied := o_applied o;
     o_hdr := o_hdr o; o_info := Some l; o_kpta := o_kpta o; o_find := o_find o |}.
Definition with_kpta (o : obj) (a : Z) : obj :=
  {| o_patch := o_patch o; o_is_patch := o_is_patch o; o_applied := o_applied o;
     o_hdr := o_hdr o; o_info := o_info o; o_kpta := a; o_find := o_find o |}.

(** Code working on an object returns the object as it is when it ends, also when
    it ends with an error, since the roll-back starts from there. *)
Definition OM (A : Type) : Type := obj -> st -> outcome A * obj * st.
Definition obind {A B} (x : OM A) (f : A -> OM B) : OM B :=
  fun o s => match x o s with
             | (Ret a, o', s') => f a o' s'
             | (Err, o', s') => (Err, o', s')
             | (Die, o', s') => (Die, o', s')
             | (Hang, o', s') => (Hang, o', s')
             | (UB, o', s') => (UB, o', s')
             end.
Definition lift {A} (x : M A) : OM A := fun o s => let '(r, s') := x s in (r, o, s').
Definition oget : OM obj := fun o s => (Ret o, o, s).
Definition oput (o' : obj) : OM unit := fun _ s => (Ret tt, o', s).
Definition oret {A} (a : A) : OM A := fun o s => (Ret a, o, s).
Definition ofail {A} : OM A := fun o s => (Err, o, s).
Notation "x <~ a ;; b" := (obind a (fun x => b)) (at level 61, a at next level, right associativity).
Notation "a ~;; b" := (obind a (fun _ => b)) (at level 61, right associativity).

(** kpatch_object_get_applied_patch_by_id, kpatch_process.c:1213-1226 *)
Definition applied_by_id (o : obj) (id : option (list Z)) : bool :=
  existsb (fun h => str_same id (hdr_str h h_id)) (o_applied o).

Section Engine.
(** The machine: architecture, bytes of one jump table entry
    (include/kpatch_elf.h:33-42), page size. *)
Variable A : arch.
Variable jent : Z.
Variable pg : Z.

Definition hunk : nat := Z.to_nat (a_hunk A).

(** kpatch_new_jmp_table, kpatch_elf.c:468-482: 16 bytes plus the entries;
    [size] is an unsigned int. *)
Definition jt_size (undef : Z) : Z := u32 (16 + undef * jent).

(** Layout of the region: kpatch_patch.c:362-390.  Returns the header with the
    offsets filled in and the size of the region. *)
Definition layout (h : list Z) (undef info_off : Z) (ninfo : nat) : list Z * Z :=
  let sz0 := round_up hdr_size 8 in
  let h1 := if undef =? 0 then h else set32 h h_jmp_offset sz0 in
  let sz1 := if undef =? 0 then sz0 else round_up (u64 (sz0 + jt_size undef)) pg in
  let sz2 := round_up sz1 pg in
  let h2 := set32 h1 h_elf_offset sz2 in
  let sz3 := round_up (u64 (sz2 + get32 h h_total_size - hdr_size)) 128 in
  let h3 := set32 h2 h_user_info (u64 (info_off + get32 h2 h_elf_offset)) in
  let h4 := set32 h3 h_user_undo sz3 in
  let sz4 := round_up (u64 (sz3 + u64 (a_hunk A * Z.of_nat ninfo))) 16 in
  let sz5 := round_up sz4 pg in
  (set64 h4 h_total_mem sz5, sz5).

(** kpatch_object_allocate_patch, kpatch_process.c:1088-1116.  The last step is
    vm_hole_split (1031-1060), which fails when malloc fails, after kpta is set. *)
Definition allocate_patch (sz : Z) : OM unit :=
  o <~ oget ;;
  if o_find o sz =? 0 then ofail
  else
    a <~ lift (mmap_remote pg (o_find o sz) sz) ;;
    oput (with_kpta o a) ~;;
    lift choice.

(** The [n]-th entry of o->info.  Reading beyond the array is undefined. *)
Definition nth_info (l : list info) (n : nat) : info := nth n l zinfo.
Fixpoint update {X : Type} (l : list X) (n : nat) (f : X -> X) : list X :=
  match l, n with
  | [], _ => []
  | x :: r, O => f x :: r
  | x :: r, S n' => x :: update r n' f
  end.

(** patch_apply_hunk, arch/x86/arch_patch.c:39-73 and the same function of the
    other architectures.  [info->flags |= PATCH_APPLIED] is executed whether or
    not the write succeeded. *)
Definition apply_hunk (h : list Z) (n : nat) : OM unit :=
  o <~ oget ;;
  match o_info o with
  | None => ofail
  | Some l =>
      let i := nth_info l n in
      if is_new_func i then oret tt
      else if negb (a_pre A (daddr i)) then ofail
      else
        let pundo := u64 (o_kpta o + get32 h h_user_undo + Z.of_nat n * a_hunk A) in
        lift (mem_copy pundo (daddr i) hunk) ~;;
        match a_code A (daddr i) (saddr i) with
        | None => ofail
        | Some code =>
            fun o' s =>
              let '(r, s') := mem_write (daddr i) code s in
              match r with
              | Ret _ => (Ret tt, with_info o' (update l n mark_applied), s')
              | Die => (Die, o', s')
              | _ => (Err, with_info o' (update l n mark_applied), s')
              end
        end
  end.

(** kpatch_patch.c:447-451 *)
Fixpoint apply_hunks (h : list Z) (n : nat) (todo : nat) : OM unit :=
  match todo with
  | O => oret tt
  | S t => apply_hunk h n ~;; apply_hunks h (S n) t
  end.

(** object_apply_patch, kpatch_patch.c:331-464.  Returns 0 when there is nothing
    to do for the object, 1 when the patch has been applied.  [check] is the call of
    patch_ensure_safety (442, 697) on the object's table, modelled in SafetyModel.v; in
    [object_apply_patch] and [object_unapply_patch] its answer is arbitrary. *)
Definition object_apply_patch_with (check : list info -> M unit) : OM Z :=
  o <~ oget ;;
  match o_patch o with
  | None => oret 0
  | Some p =>
    if o_is_patch o then oret 0
    else
      lift choice ~;;                                       (* duplicate_kp_file *)
      oput (with_hdr o (p_hdr p)) ~;;
      (if applied_by_id o (hdr_str (p_hdr p) h_id) then ofail else oret tt) ~;;
      match p_info p with
      | None => ofail
      | Some (info_off, ninfo) =>
        oput (with_info (with_hdr o (p_hdr p)) (p_infos0 p)) ~;;
        (if p_undef p =? 0 then oret tt else lift choice) ~;;   (* jump table *)
        let '(h, sz) := layout (p_hdr p) (p_undef p) info_off ninfo in
        oput (with_info (with_hdr o h) (p_infos0 p)) ~;;
        allocate_patch sz ~;;
        o1 <~ oget ;;
        match p_link p (o_kpta o1) h with
        | None => ofail
        | Some (image, jt) =>
          oput (with_info o1 (infos_of image info_off ninfo)) ~;;
          lift (mem_write (u64 (o_kpta o1 + get32 h h_elf_offset)) image) ~;;
          lift (mem_write (o_kpta o1) h) ~;;
          (if p_undef p =? 0 then oret tt
           else lift (mem_write (u64 (o_kpta o1 + get32 h h_jmp_offset)) jt)) ~;;
          lift (check (infos_of image info_off ninfo)) ~;;  (* patch_ensure_safety *)
          apply_hunks h 0 ninfo ~;;
          lift (mprotect_rx_remote pg (o_kpta o1)
                 (if p_data_off p =? 0 then sz
                  else u64 (get32 h h_elf_offset + p_data_off p))) ~;;
          oret 1
        end
      end
  end.

Definition object_apply_patch : OM Z := object_apply_patch_with (fun _ => choice).

(** object_find_applied_patch_info, kpatch_patch.c:618-684: the loop that reads
    the table back, 651-675, until an all-zero entry. *)
Fixpoint read_infos (fuel : nat) (it : iter) (a : Z) (acc : list info) : M (list info) :=
  match fuel with
  | O => hang
  | S f =>
      r <- iter_peek pg it info_size a ;;
      match r with
      | (_, None) => fail
      | (it', Some bs) =>
          if is_end_info (info_of bs) then ret acc
          else read_infos f it' (u64 (a + info_size)) (acc ++ [info_of bs])
      end
  end.

Definition find_applied_info (fuel : nat) : OM unit :=
  o <~ oget ;;
  match o_info o with
  | Some _ => oret tt
  | None =>
      match o_hdr o with
      | None => ofail
      | Some h =>
          if negb (applied_by_id o (hdr_str h h_id)) then ofail
          else
            l <~ lift (read_infos fuel (iter_init pg) (u64 (o_kpta o + get32 h h_user_info)) []) ;;
            oput (with_info o l)
      end
  end.

(** kpatch_patch.c:702-721 *)
Fixpoint restore_hunks (check_flag : bool) (undo : Z) (n : nat) (l : list info) : M unit :=
  match l with
  | [] => ret tt
  | i :: r =>
      (if is_new_func i then ret tt
       else if check_flag && negb (is_applied i) then ret tt
       else mem_copy (daddr i) (u64 (undo + Z.of_nat n * a_hunk A)) hunk) ;;;
      restore_hunks check_flag undo (S n) r
  end.

(** object_unapply_patch, kpatch_patch.c:686-735 *)
Definition object_unapply_patch_with (check : list info -> M unit) (fuel : nat) (check_flag : bool) : OM Z :=
  find_applied_info fuel ~;;
  o <~ oget ;;
  lift (check (match o_info o with Some l => l | None => [] end)) ~;; (* patch_ensure_safety *)
  match o_hdr o, o_info o with
  | Some h, Some l =>
      lift (restore_hunks check_flag (u64 (o_kpta o + get32 h h_user_undo)) 0 l) ~;;
      lift (munmap_remote pg (o_kpta o) (get64 h h_total_mem)) ~;;
      oret 1
  | _, _ => ofail      (* not reached: a NULL pointer dereference in the code *)
  end.
Definition object_unapply_patch (fuel : nat) (check_flag : bool) : OM Z :=
  object_unapply_patch_with (fun _ => choice) fuel check_flag.

(** kpatch_apply_patches, kpatch_patch.c:469-496.  Returns the objects as they are
    at the end; an error anywhere makes the result an error, after the failing
    object (only) has been rolled back. *)
Fixpoint apply_patches (fuel : nat) (objs : list obj) (applied : Z) (s : st)
  : outcome Z * list obj * st :=
  match objs with
  | [] => (Ret applied, [], s)
  | o :: r =>
      match object_apply_patch o s with
      | (Ret k, o', s') =>
          let '(res, r', s'') := apply_patches fuel r (if k =? 0 then applied else applied + 1) s' in
          (res, o' :: r', s'')
      | (Die, o', s') => (Die, o' :: r, s')
      | (Hang, o', s') => (Hang, o' :: r, s')
      | (UB, o', s') => (UB, o' :: r, s')
      | (Err, o', s') =>
          match object_unapply_patch fuel true o' s' with
          | (Die, o'', s'') => (Die, o'' :: r, s'')
          | (Hang, o'', s'') => (Hang, o'' :: r, s'')
          | (UB, o'', s'') => (UB, o'' :: r, s'')
          | (_, o'', s'') => (Err, o'' :: r, s'')
          end
      end
  end.

(** Patching one object, with its roll-back: the loop body of kpatch_apply_patches
    for a single object. *)
Definition patch_object (fuel : nat) (o : obj) (s : st) : outcome Z * obj * st :=
  match object_apply_patch o s with
  | (Err, o', s') =>
      match object_unapply_patch fuel true o' s' with
      | (Die, o'', s'') => (Die, o'', s'')
      | (Hang, o'', s'') => (Hang, o'', s'')
      | (UB, o'', s'') => (UB, o'', s'')
      | (_, o'', s'') => (Err, o'', s'')
      end
  | r => r
  end.

(** ** Cancelling a patch in a later run of the tool, which starts from the
    patient alone.

    process_get_object_type, kpatch_process.c:184-226, on a mapping that starts at
    [kpta]: it must be r-x exactly and start with the magic string; 1024 bytes are
    read (process_add_object_vma, 238).  Simplification: that the mapping is
    listed as anonymous, starts at [kpta] and is at least 504 bytes long follows
    from how it was created and is not modelled. *)
Definition recognise_patch (kpta : Z) : M (option (list Z)) :=
  fun s =>
    match mem_read kpta 1024 s with
    | (Ret bs, s') =>
        if sx s' kpta && str_same (cstr bs) (Some magic)
        then (Ret (Some bs), s') else (Ret None, s')
    | (Err, s') => (Ret None, s')
    | (Die, s') => (Die, s')
    | (Hang, s') => (Hang, s')
    | (UB, s') => (UB, s')
    end.

(** kpatch_process_associate_patches (kpatch_process.c:424-478) for one object with
    build id [bid] and one candidate mapping, followed by object_unapply_patch as
    called from kpatch_unapply_patches (kpatch_patch.c:762-787). *)
Definition unpatch_object (fuel : nat) (bid id : list Z) (kpta : Z) (s : st)
  : outcome Z * st :=
  match recognise_patch kpta s with
  | (Ret (Some bs), s') =>
      let h := firstn (Z.to_nat hdr_size) bs in
      if str_same (hdr_str bs h_buildid) (Some bid) && str_same (hdr_str bs h_id) (Some id)
      then
        let '(r, _, s'') :=
          object_unapply_patch fuel false
            {| o_patch := None; o_is_patch := false; o_applied := [bs];
               o_hdr := Some h; o_info := None; o_kpta := kpta;
               o_find := fun _ => 0 |} s' in
        (r, s'')
      else (Err, s')
  | (Ret None, s') => (Err, s')
  | (Err, s') => (Err, s')
  | (Die, s') => (Die, s')
  | (Hang, s') => (Hang, s')
  | (UB, s') => (UB, s')
  end.

End Engine.
