(** The objects of a process and the patches found in it: kpatch_process.c; which
    patches are cancelled: kpatch_patch.c.  Definitions only. *)
From Coq Require Import String.
From Verif Require Import Base StorageModel.
Open Scope list_scope.

(** ** Objects *)

(** struct vm_area, include/kpatch_process.h:35-40, without the file offset *)
Record vma := { v_start : Z; v_end : Z; v_prot : Z }.

(** struct object_file, include/kpatch_process.h:60-147, the part needed here.
    [po_bid]: what the notes of the file say (kpatch_elf.c:elf_object_look_for_buildid);
    [po_hdr]: the header kpfile.patch points to; [po_applied]: the patches of the
    list applied_patch, as positions in the list of objects. *)
Record pobj := {
  po_dev : Z; po_inode : Z; po_name : list Z; po_vmas : list vma;
  po_elf : bool; po_patch : bool; po_hdr : option (list Z); po_bid : option (list Z);
  po_kpta : Z; po_target : bool; po_applied : list nat }.

Definition set_vmas (o : pobj) (vs : list vma) : pobj :=
  {| po_dev := po_dev o; po_inode := po_inode o; po_name := po_name o; po_vmas := vs;
     po_elf := po_elf o; po_patch := po_patch o; po_hdr := po_hdr o; po_bid := po_bid o;
     po_kpta := po_kpta o; po_target := po_target o; po_applied := po_applied o |}.
Definition set_applied (o : pobj) (l : list nat) : pobj :=
  {| po_dev := po_dev o; po_inode := po_inode o; po_name := po_name o; po_vmas := po_vmas o;
     po_elf := po_elf o; po_patch := po_patch o; po_hdr := po_hdr o; po_bid := po_bid o;
     po_kpta := po_kpta o; po_target := po_target o; po_applied := l |}.
Definition set_target (o : pobj) (kpta : Z) (h : option (list Z)) : pobj :=
  {| po_dev := po_dev o; po_inode := po_inode o; po_name := po_name o; po_vmas := po_vmas o;
     po_elf := po_elf o; po_patch := po_patch o; po_hdr := h; po_bid := po_bid o;
     po_kpta := kpta; po_target := true; po_applied := po_applied o |}.

Fixpoint upd {A} (l : list A) (i : nat) (x : A) : list A :=
  match l, i with
  | [], _ => []
  | _ :: r, O => x :: r
  | a :: r, S j => a :: upd r j x
  end.

(** kpatch_get_buildid, kpatch_elf.c:160-177 *)
Definition get_buildid (o : pobj) : option (list Z) := if po_elf o then po_bid o else None.

(** The strings buildid and id of a header, as string functions see them. *)
Definition hdr_bid (h : list Z) : list Z := upto_nul (skipn 88 h).
Definition hdr_id (h : list Z) : list Z := upto_nul (skipn 8 h).

(** ** From the memory map to objects *)

(** A line of /proc/pid/maps as scanned by kpatch_process.c:512-521: [l_name] is name_,
    "[anonymous]" if there was none; [l_prot] from perms2prot. *)
Record mline := { l_start : Z; l_end : Z; l_prot : Z; l_dev : Z; l_inode : Z; l_name : list Z }.

(** GNU basename *)
Fixpoint after_slash (s acc : list Z) : list Z :=
  match s with
  | [] => acc
  | c :: r => after_slash r (if c =? 47 then r else acc)
  end.
Definition basename (s : list Z) : list Z := after_slash s s.
(** kpatch_process.c:546 *)
Definition line_name (l : mline) : list Z :=
  match l_name l with
  | c :: _ => if c =? 47 then basename (l_name l) else l_name l
  | [] => []
  end.

Fixpoint is_prefix (a b : list Z) : bool :=
  match a, b with
  | [], _ => true
  | x :: r, y :: s => (x =? y) && is_prefix r s
  | _, [] => false
  end.

Inductive otype := TUnknown | TElf | TKpatch.
(** process_get_object_type, kpatch_process.c:184-226, for a buffer of 1024 bytes;
    [rd] is what pread of 1024 bytes at the start of the area yields, [None] when it
    fails or is short.  -1 and OBJECT_UNKNOWN are treated alike by the caller.
    PROT_READ | PROT_EXEC = 5. *)
Definition get_object_type (rd : Z -> option (list Z)) (l : mline) : otype :=
  match rd (l_start l) with
  | None => TUnknown
  | Some buf =>
      if (l_prot l =? 5) && is_prefix (str "[anonymous]") (line_name l)
         && (hdr_size <=? u64 (l_end l - l_start l))
         && list_eqb (upto_nul buf) (str "KPATCH1")
      then TKpatch
      else if list_eqb (firstn 4 buf) [127; 69; 76; 70] then TElf else TUnknown
  end.

(** The name given to a patch's mapping, and the size of what snprintf writes (at
    most KPATCH_OBJECT_NAME_LEN = 50 bytes) at [name], which points into name_[256]
    behind the last slash: lines 211-215. *)
Definition kpatch_name (h : list Z) : list Z :=
  firstn 49 (str "[kpatch-" ++ hdr_bid h ++ str "]").
Definition name_fits (l : mline) (h : list Z) : bool :=
  (zlen (l_name l) - zlen (line_name l)) + (zlen (kpatch_name h) + 1) <=? 256.

(** vm_area_same and object_add_vm_area, kpatch_process.c:88-117 *)
Definition vma_same (a b : vma) : bool :=
  (v_start a =? v_start b) && (v_end a =? v_end b) && (v_prot a =? v_prot b).
Definition line_vma (l : mline) : vma := {| v_start := l_start l; v_end := l_end l; v_prot := l_prot l |}.
Definition add_vm_area (o : pobj) (v : vma) : pobj :=
  if existsb (vma_same v) (po_vmas o) then o else set_vmas o (po_vmas o ++ [v]).

(** Is the mapping one of an object already known, kpatch_process.c:253-258 *)
Definition same_object (dev inode : Z) (name : list Z) (o : pobj) : bool :=
  (negb (dev =? 0) && negb (inode =? 0) && (po_dev o =? dev) && (po_inode o =? inode))
  || ((dev =? 0) && list_eqb (po_name o) name).
(** The search goes from the end of the list. *)
Fixpoint last_index {A} (f : A -> bool) (l : list A) : option nat :=
  match l with
  | [] => None
  | a :: r => match last_index f r with
              | Some i => Some (S i)
              | None => if f a then Some O else None
              end
  end.

(** The result of a step: the objects, failure, or a write behind name_. *)
Inductive pres := POk (os : list pobj) | PErr | PBad.

(** process_add_object_vma, kpatch_process.c:231-290, with process_new_object 119-176.
    [ehdr_ok]: kpatch_elf_object_set_ehdr accepts the header; [bid]: the build id that
    will be found in the object whose first mapping starts here.  The inode is an int.
    Simplified: malloc does not fail. *)
Definition add_object_vma (rd : Z -> option (list Z)) (ehdr_ok : list Z -> bool)
    (bid : Z -> option (list Z)) (os : list pobj) (l : mline) : pres :=
  let new name elf patch hdr :=
    {| po_dev := l_dev l; po_inode := s32 (l_inode l); po_name := name;
       po_vmas := [line_vma l]; po_elf := elf; po_patch := patch; po_hdr := hdr;
       po_bid := bid (l_start l); po_kpta := 0; po_target := false; po_applied := [] |} in
  let buf := match rd (l_start l) with Some b => b | None => [] end in
  match get_object_type rd l with
  | TKpatch =>
      if name_fits l buf
      then POk (os ++ [new (kpatch_name buf) false true (Some buf)])
      else PBad
  | ty =>
      match last_index (same_object (l_dev l) (s32 (l_inode l)) (line_name l)) os with
      | Some i => match nth_error os i with
                  | Some o => POk (upd os i (add_vm_area o (line_vma l)))
                  | None => PErr
                  end
      | None =>
          match ty with
          | TElf => if ehdr_ok buf
                    then POk (os ++ [new (line_name l) true false None]) else PErr
          | _ => POk (os ++ [new (line_name l) false false None])
          end
      end
  end.

(** kpatch_process_parse_proc_maps, kpatch_process.c:480-579, the list of objects; the
    list of gaps is HoleModel.v. *)
Fixpoint parse_maps rd ehdr_ok bid (os : list pobj) (ls : list mline) : pres :=
  match ls with
  | [] => POk os
  | l :: r => match add_object_vma rd ehdr_ok bid os l with
              | POk os' => parse_maps rd ehdr_ok bid os' r
              | e => e
              end
  end.
(** libc_base, lines 555-560: [None] makes the function fail.  The name is the one
    after a possible renaming; a renamed one does not start with "libc". *)
Fixpoint libc_base rd (ls : list mline) : option Z :=
  match ls with
  | [] => None
  | l :: r => let name := match get_object_type rd l with
                          | TKpatch => str "[kpatch-" | _ => line_name l end in
              if is_prefix (str "libc") (basename name) && Z.testbit (l_prot l) 2
              then Some (l_start l) else libc_base rd r
  end.

(** ** Patches found in the process *)

(** kpatch_object_get_applied_patch_by_id, kpatch_process.c:1214-1226 *)
Definition patch_id_of (os : list pobj) (j : nat) : option (list Z) :=
  match nth_error os j with
  | Some p => match po_hdr p with Some h => Some (hdr_id h) | None => None end
  | None => None
  end.
Definition has_applied (os : list pobj) (o : pobj) (id : list Z) : bool :=
  existsb (fun j => match patch_id_of os j with Some i => list_eqb i id | None => false end)
    (po_applied o).
(** kpatch_object_add_applied_patch, kpatch_process.c:1228-1249 *)
Definition add_applied (os : list pobj) (o : pobj) (j : nat) (id : list Z) : pobj :=
  if has_applied os o id then o else set_applied o (po_applied o ++ [j]).

Fixpoint first_index {A} (f : A -> bool) (l : list A) : option nat :=
  match l with
  | [] => None
  | a :: r => if f a then Some O
              else match first_index f r with Some i => Some (S i) | None => None end
  end.

Definition has_bid (b : list Z) (o : pobj) : bool :=
  match get_buildid o with Some x => list_eqb x b | None => false end.

(** kpatch_process_associate_patches, kpatch_process.c:424-478: the loop over the
    positions of the list; result: objects, number found, number of targets.
    Simplified: malloc does not fail.  A patch object has a header and a mapping. *)
Fixpoint assoc_loop (js : list nat) (pid : option (list Z)) (os : list pobj) (found targets : Z)
  : list pobj * Z * Z :=
  match js with
  | [] => (os, found, targets)
  | j :: r =>
      match nth_error os j with
      | Some p =>
          match po_patch p, po_hdr p, po_vmas p with
          | true, Some h, v :: _ =>
              match first_index (has_bid (hdr_bid h)) os with
              | None => assoc_loop r pid os found targets
              | Some i =>
                  match nth_error os i with
                  | None => assoc_loop r pid os found targets
                  | Some o =>
                      let o1 := add_applied os o j (hdr_id h) in
                      match pid with
                      | Some id =>
                          if list_eqb (hdr_id h) id
                          then assoc_loop r pid
                                 (upd os i (set_target o1 (v_start v) (Some (firstn 504 h))))
                                 (found + 1) (targets + 1)
                          else assoc_loop r pid (upd os i o1) (found + 1) targets
                      | None => assoc_loop r pid (upd os i o1) (found + 1) targets
                      end
                  end
              end
          | _, _, _ => assoc_loop r pid os found targets
          end
      | None => assoc_loop r pid os found targets
      end
  end.
Definition associate (pid : option (list Z)) (os : list pobj) : option (list pobj * Z) :=
  let '(os', found, targets) := assoc_loop (seq 0 (length os)) pid os 0 0 in
  match pid with
  | Some _ => if targets =? 0 then None else Some (os', found)
  | None => Some (os', found)
  end.

(** ** Cancelling *)

(** kpatch_should_unapply_patch, kpatch_patch.c:737-760 *)
Definition should_unapply (o : pobj) (sel : list (list Z)) : bool :=
  match sel with
  | [] => true
  | _ => match get_buildid o with
         | None => false
         | Some b => existsb (fun s => list_eqb b s || list_eqb (po_name o) s) sel
         end
  end.

(** kpatch_unapply_patches, kpatch_patch.c:762-787: the objects for which
    object_unapply_patch is called, with the address of the region and the header it
    works on.  [un]: its result (EngineModel.v), by position. *)
Record uact := { ua_obj : nat; ua_kpta : Z; ua_hdr : option (list Z) }.
Fixpoint unapply_loop (un : nat -> Z) (sel : list (list Z)) (n : nat) (os : list pobj) (done : Z)
  : Z * list uact :=
  match os with
  | [] => (done, [])
  | o :: r =>
      if po_patch o || match po_applied o with [] => true | _ => false end || negb (po_target o)
      then unapply_loop un sel (S n) r done
      else if negb (should_unapply o sel) then unapply_loop un sel (S n) r done
      else let a := {| ua_obj := n; ua_kpta := po_kpta o; ua_hdr := po_hdr o |} in
           if un n <? 0 then (un n, [a])
           else let '(rv, l) := unapply_loop un sel (S n) r (done + 1) in (rv, a :: l)
  end.

(** The selection as a whole: process_unpatch, kpatch_patch.c:821-829. *)
Definition unpatch (un : nat -> Z) (pid : list Z) (sel : list (list Z)) (os : list pobj)
  : Z * list uact :=
  match associate (Some pid) os with
  | None => (-1, [])
  | Some (os', _) => unapply_loop un sel 0 os' 0
  end.

(** object_info, kpatch_user.c:224-255: what is printed for an object: name, build id,
    the ids of its patches; [None]: failure.  is_kernel_object_name,
    include/kpatch_process.h:239-247. *)
Definition is_kernel_name (n : list Z) : bool :=
  match n with
  | c :: _ => ((c =? 91) && (last n 0 =? 93)) || is_prefix (str "anon_inode") n
  | [] => false
  end.
Definition object_info (os : list pobj) (o : pobj)
  : option (option (list Z * list Z * list (option (list Z)))) :=
  if negb (po_elf o) || is_kernel_name (po_name o) then Some None
  else match po_applied o with
       | [] => Some None
       | l => match get_buildid o with
              | None => None
              | Some b => Some (Some (po_name o, b, map (patch_id_of os) l))
              end
       end.
(** process_info, kpatch_user.c:257-285, after the objects were found. *)
Fixpoint info_loop (all os : list pobj) : Z * list (list Z * list Z * list (option (list Z))) :=
  match os with
  | [] => (0, [])
  | o :: r => match object_info all o with
              | None => (-1, [])
              | Some None => info_loop all r
              | Some (Some x) => let '(rv, l) := info_loop all r in (rv, x :: l)
              end
  end.
Definition info (os : list pobj) : Z * list (list Z * list Z * list (option (list Z))) :=
  match associate None os with
  | None => (-1, [])
  | Some (os', _) => info_loop os' os'
  end.
