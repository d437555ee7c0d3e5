(** Vocabulary for the statements about objects and patches of a process. *)
From Coq Require Import String.
From Verif Require Import Base StorageModel ProcModel.
Open Scope list_scope.

(** Objects as they are before patches are looked for: no patch is associated with any,
    and those that are patches have a header and a mapping and are not ELF files. *)
Definition fresh (os : list pobj) : Prop :=
  Forall (fun o => po_target o = false /\ po_applied o = [] /\ po_vmas o <> [] /\
            (po_patch o = true -> po_elf o = false /\ po_hdr o <> None) /\
            (po_patch o = false -> po_hdr o = None)) os.

(** Object number [j] is a patch for build id [b], with id [id], at [a], with header [h]. *)
Definition is_patch_at (os : list pobj) (j : nat) (b id : list Z) (a : Z) (h : list Z) : Prop :=
  exists p v r, nth_error os j = Some p /\ po_patch p = true /\ po_hdr p = Some h /\
    po_vmas p = v :: r /\ v_start v = a /\ hdr_bid h = b /\ hdr_id h = id.

(** Object number [i] is an ELF file with build id [b]. *)
Definition is_elf_at (os : list pobj) (i : nat) (b : list Z) (o : pobj) : Prop :=
  nth_error os i = Some o /\ po_elf o = true /\ po_bid o = Some b.

(** No two files with the same build id are mapped. *)
Definition distinct_bids (os : list pobj) : Prop :=
  forall i i' b o o', is_elf_at os i b o -> is_elf_at os i' b o' -> i = i'.
(** No two patches for the same build id have the same id. *)
Definition distinct_patches (os : list pobj) : Prop :=
  forall j j' b id a a' h h', is_patch_at os j b id a h -> is_patch_at os j' b id a' h' -> j = j'.

(** The user asked for this object: no list, its build id, or its name. *)
Definition requested (sel : list (list Z)) (b : list Z) (o : pobj) : Prop :=
  sel = [] \/ In b sel \/ In (po_name o) sel.

(** A mapping that holds a patch: readable and executable, without a file, large
    enough, and beginning with the magic string. *)
Definition holds_patch (rd : Z -> option (list Z)) (l : mline) : Prop :=
  l_prot l = 5 /\ (exists x, line_name l = str "[anonymous]" ++ x) /\
  504 <= u64 (l_end l - l_start l) /\
  exists buf r, rd (l_start l) = Some buf /\ buf = str "KPATCH1" ++ 0 :: r.

(** What an area of an object has to do with a line of the map. *)
Definition belongs (l : mline) (o : pobj) : Prop :=
  (po_dev o = l_dev l /\ po_inode o = s32 (l_inode l)) \/
  (l_dev l = 0 /\ po_name o = line_name l).

(** Mappings without a file have device 0. *)
Definition anonymous_have_no_file (ls : list mline) : Prop :=
  forall l x, In l ls -> line_name l = str "[anonymous]" ++ x -> l_dev l = 0.
