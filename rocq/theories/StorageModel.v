(** The patch store (/repo/src/kpatch_storage.c, kpatch_common.c).
    Definitions only. *)
From Coq Require Import String Ascii.
From Verif Require Import Base RbModel.
Open Scope list_scope.

(** The bytes of an ASCII string. *)
Definition str (s : string) : list Z :=
  map (fun c => Z.of_nat (nat_of_ascii c)) (list_ascii_of_string s).

(** ** The file system under the store's directory, at one moment.
    [fs_file p]: what reading the file [p] to its end yields, [None] when it cannot
    be opened, queried or mapped; [fs_stat p]: fstatat; [fs_link p]: readlinkat
    with a large enough buffer, [None] when it fails. *)
Inductive statres := SSize (n : Z) | SNoent | SFail.
Record fsys := { fs_file : list Z -> option (list Z);
                 fs_stat : list Z -> statres;
                 fs_link : list Z -> option (list Z) }.

(** sizeof(struct kpatch_file), include/kpatch_file.h:130-180; offsets in it. *)
Definition hdr_size : Z := 504.
Definition off_buildid : Z := 88.
Definition off_kpatch_offset : Z := 152.
Definition off_total_size : Z := 160.
Definition off_user_level : Z := 192.

(** kpatch_open_fd, kpatch_common.c:38-62, after a successful open *)
Definition open_fd (d : list Z) : option (list Z) :=
  if zlen d <? hdr_size then None else Some d.
(** kpatch_openat_file, kpatch_common.c:12-36; on failure the size written by
    kpatch_open_fd is not looked at. *)
Definition openat_file (fs : fsys) (path : list Z) : option (list Z) :=
  match fs_file fs path with
  | Some d => open_fd d
  | None => None
  end.

Definition read_le (d : list Z) (off n : Z) : option Z :=
  match slice d off n with Some bs => Some (le_val bs) | None => None end.

(** patch_file_verify, kpatch_storage.c:37-75.  [None]: a read outside the file.
    The offset is 32 bits wide and the sum 64. *)
Definition verify (d : list Z) : option bool :=
  match slice d 0 8, read_le d off_total_size 4, read_le d off_kpatch_offset 4 with
  | Some magic, Some total, Some koff =>
      if negb (list_eqb magic (str "KPATCH1" ++ [0])) then Some false        (* 46-50 *)
      else if zlen d <? total then Some false                               (* 52-56 *)
      else if zlen d <? koff + 64 then Some false                           (* 58-62 *)
      else match slice d koff 4, read_le d (koff + 16) 2, read_le d (koff + 58) 2 with
           | Some id, Some ty, Some shent =>                                (* 64-71 *)
               Some (list_eqb id [127; 69; 76; 70] && (ty =? 1) && (shent =? 64))
           | _, _, _ => None
           end
  | _, _, _ => None
  end.

(** ** Patch levels *)
Definition is_space (c : Z) : bool := (c =? 32) || ((9 <=? c) && (c <=? 13)).
Definition is_digit (c : Z) : bool := (48 <=? c) && (c <=? 57).
Fixpoint skip_space (s : list Z) : list Z :=
  match s with c :: r => if is_space c then skip_space r else s | [] => [] end.
Fixpoint digits (s : list Z) (acc : Z) : Z :=
  match s with c :: r => if is_digit c then digits r (acc * 10 + (c - 48)) else acc | [] => acc end.
(** atoi of the C library: strtol, which stops at LONG_MAX or LONG_MIN, cut to int *)
Definition atoi (s : list Z) : Z :=
  match skip_space s with
  | c :: r => if c =? 45 then s32 (- Z.min (digits r 0) (2 ^ 63))
              else if c =? 43 then s32 (Z.min (digits r 0) (2 ^ 63 - 1))
              else s32 (Z.min (digits (c :: r) 0) (2 ^ 63 - 1))
  | [] => 0
  end.

(** Up to the first NUL: what a string function sees of the buffer. *)
Fixpoint upto_nul (s : list Z) : list Z :=
  match s with c :: r => if c =? 0 then [] else c :: upto_nul r | [] => [] end.

(** readlink_patchlevel, kpatch_storage.c:170-190, on the name without its last
    component; -1 is failure. *)
Definition readlink_patchlevel (fs : fsys) (dir : list Z) : Z :=
  match fs_link fs dir with
  | Some s => if (0 <? zlen s) && (zlen s <? 32) then atoi (upto_nul s) else -1
  | None => -1
  end.

(** pathtemplates, kpatch_storage.c:166-169 *)
Definition path_latest (bid : list Z) : list Z := bid ++ str "/latest/kpatch.bin".
Definition path_latest_dir (bid : list Z) : list Z := bid ++ str "/latest".
Definition path_plain (bid : list Z) : list Z := bid ++ str ".kpatch".

Definition set_level (d : list Z) (lv : Z) : list Z :=
  match splice d off_user_level (le_bytes 4 lv) with Some d' => d' | None => d end.

(** storage_open_patch, kpatch_storage.c:192-229.  [OBad]: an access outside the
    file. *)
Inductive open_res := OErr | OFound (d : list Z) (lv : Z) | OBad.
Definition open_patch (fs : fsys) (bid : list Z) : open_res :=
  match openat_file fs (path_latest bid) with
  | Some d => match verify d with
              | None => OBad
              | Some false => OErr
              | Some true => let lv := readlink_patchlevel fs (path_latest_dir bid) in
                             if lv <? 0 then OErr else OFound (set_level d lv) lv
              end
  | None => match openat_file fs (path_plain bid) with
            | Some d => match verify d with
                        | None => OBad
                        | Some false => OErr
                        | Some true => OFound d (-1)
                        end
            | None => OErr
            end
  end.

(** storage_stat_patch, kpatch_storage.c:231-266 *)
Inductive stat_out := TErr | TNotFound | TFound (size lv : Z).
Definition stat_patch (fs : fsys) (bid : list Z) : stat_out :=
  match fs_stat fs (path_latest bid) with
  | SSize n => let lv := readlink_patchlevel fs (path_latest_dir bid) in
               if lv <? 0 then TErr else TFound n lv
  | _ => match fs_stat fs (path_plain bid) with
         | SSize n => TFound n (-1)
         | SNoent => TNotFound
         | SFail => TErr
         end
  end.

(** struct kpatch_storage_patch, include/kpatch_storage.h:9-24; [sp_data] is
    kpfile.patch, [None] the null pointer. *)
Record sp := { sp_bid : list Z; sp_size : Z; sp_data : option (list Z); sp_level : Z }.

(** cmp_buildid, kpatch_storage.c:152-162 *)
Definition cmp_buildid (p : sp) (bid : list Z) : Z := strcmp (sp_bid p) bid.

(** storage_get_patch, kpatch_storage.c:270-318, for a directory.  [ok] is false
    when malloc fails.  [GBad]: a buffer overrun (sprintf into 96 bytes, strcpy
    into 41) or a null pointer followed. *)
Inductive get_res := GErr | GPatch (p : sp) | GBad.
Definition get_patch (fs : fsys) (ok : bool) (t : tree sp) (bid : list Z) (load : bool)
  : get_res * tree sp :=
  match search cmp_buildid t bid with
  | Some p => (GPatch p, t)
  | None =>
      if negb ok then (GErr, t)
      else if 96 <=? zlen (path_latest bid) then (GBad, t)
      else
        let r := if load
                 then match open_patch fs bid with
                      | OErr => Some None
                      | OFound d lv => Some (Some {| sp_bid := bid; sp_size := zlen d; sp_data := Some d; sp_level := lv |})
                      | OBad => None
                      end
                 else match stat_patch fs bid with
                      | TErr => Some None
                      | TNotFound => Some (Some {| sp_bid := bid; sp_size := -1; sp_data := None; sp_level := -1 |})
                      | TFound n lv => Some (Some {| sp_bid := bid; sp_size := n; sp_data := None; sp_level := lv |})
                      end in
        match r with
        | None => (GBad, t)
        | Some None => (GErr, t)
        | Some (Some p) =>
            if 41 <=? zlen bid then (GBad, t)
            else match insert cmp_buildid t p bid with
                 | Some (t', _) => (GPatch p, t')
                 | None => (GBad, t)
                 end
        end
  end.

(** storage_load_patch, kpatch_storage.c:325-345.  [LFound None]: PATCH_FOUND with a
    null patch pointer. *)
Inductive load_res := LFound (d : option (list Z)) | LNotFound | LErr | LBad.
Definition load_patch (fs : fsys) (ok : bool) (t : tree sp) (bid : list Z) : load_res * tree sp :=
  match get_patch fs ok t bid true with
  | (GErr, t') => (LErr, t')
  | (GPatch p, t') => (if 0 <=? sp_size p then LFound (sp_data p) else LNotFound, t')
  | (GBad, t') => (LBad, t')
  end.

(** storage_have_patch, kpatch_storage.c:347-365 *)
Inductive have_res := HFound (size lv : Z) | HNotFound | HErr | HBad.
Definition have_patch (fs : fsys) (ok : bool) (t : tree sp) (bid : list Z) : have_res * tree sp :=
  match get_patch fs ok t bid false with
  | (GErr, t') => (HErr, t')
  | (GPatch p, t') => (if 0 <=? sp_size p then HFound (sp_size p) (sp_level p) else HNotFound, t')
  | (GBad, t') => (HBad, t')
  end.

(** ** A sequence of lookups in one directory store; the file system may be
    different at every call. *)
Record call := { c_fs : fsys; c_ok : bool; c_bid : list Z }.
Fixpoint run_loads (t : tree sp) (cs : list call) : list load_res :=
  match cs with
  | [] => []
  | c :: r => let '(a, t') := load_patch (c_fs c) (c_ok c) t (c_bid c) in a :: run_loads t' r
  end.
Fixpoint run_haves (t : tree sp) (cs : list call) : list have_res :=
  match cs with
  | [] => []
  | c :: r => let '(a, t') := have_patch (c_fs c) (c_ok c) t (c_bid c) in a :: run_haves t' r
  end.

(** ** A store that is one file: storage_init, kpatch_storage.c:77-130 and
    storage_get_patch, 277-282.  [None] is the failure of storage_init. *)
Definition single_buildid (d : list Z) : list Z :=
  upto_nul (firstn 40 (skipn (Z.to_nat off_buildid) d)).
Definition single_init (file : option (list Z)) : option (list Z) :=
  match file with
  | Some d => match open_fd d with
              | Some d => match verify d with Some true => Some d | _ => None end
              | None => None
              end
  | None => None
  end.
Definition single_load (d : list Z) (bid : list Z) : load_res :=
  if strcmp (single_buildid d) bid =? 0 then LFound (Some d) else LNotFound.

(** ** storage_lookup_patches, kpatch_storage.c:431-470.  An object: is it ELF, is
    its name that of a kernel object, its build id if it has one.  The result is
    what o->skpfile points to afterwards ([None]: not set) and the number found. *)
Record sobj := { so_elf : bool; so_kernel : bool; so_bid : option (list Z) }.
Fixpoint lookup_patches (fs : fsys) (t : tree sp) (os : list sobj) (found : Z)
  : list (option (option (list Z))) * Z :=
  match os with
  | [] => ([], found)
  | o :: r =>
      if negb (so_elf o) || so_kernel o
      then let '(l, n) := lookup_patches fs t r found in (None :: l, n)
      else match so_bid o with
           | None => let '(l, n) := lookup_patches fs t r found in (None :: l, n)
           | Some bid =>
               match load_patch fs true t bid with
               | (LFound d, t') => let '(l, n) := lookup_patches fs t' r (found + 1) in (Some d :: l, n)
               | (_, t') => let '(l, n) := lookup_patches fs t' r found in (None :: l, n)
               end
           end
  end.

(** ** storage_execute_script, kpatch_storage.c:472-512.  [access] is the answer
    of access(2), [child] what became of the child: exit code, signal, or nothing
    known, when fork or waitpid failed and [status] has an arbitrary value. *)
Inductive access_res := AcOk | AcNoent | AcFail.
Inductive child_res := Exited (n : Z) | Signaled (n : Z) | NoStatus (status : Z).
Definition w_ifexited (st : Z) : bool := Z.land st 127 =? 0.
Definition w_exitstatus (st : Z) : Z := Z.land (Z.shiftr st 8) 255.
Definition w_ifsignaled (st : Z) : bool := 0 <? Z.shiftr (sext 8 (Z.land st 127 + 1)) 1.
Definition w_termsig (st : Z) : Z := Z.land st 127.
Definition execute_script (is_dir : bool) (ac : access_res) (ch : child_res) : Z :=
  if negb is_dir then 0
  else match ac with
       | AcNoent => 0
       | AcFail => -1
       | AcOk =>
           let '(rv0, st) := match ch with
                             | Exited n => (1, Z.shiftl n 8)
                             | Signaled n => (1, n)
                             | NoStatus s => (-1, s)
                             end in
           let rv := if w_ifexited st then w_exitstatus st
                     else if w_ifsignaled st then w_termsig st else rv0 in
           - rv
       end.
(** process_patch, kpatch_patch.c:567-571: whether patching goes on. *)
Definition script_gate (is_dir : bool) (ac : access_res) (ch : child_res) : bool :=
  negb (execute_script is_dir ac ch <? 0).

(** ** storage_get_description, kpatch_storage.c:367-429.  [rest]: what is left of
    the file; [got]: the bytes in the buffer (sz is their number); [alloc] the size
    of the buffer.  Every entry of the list is one answer of the environment:
    malloc failing when it is called, or what read(2) does: interrupted, failing,
    or transferring at most [n + 1] bytes.  [DBad]: a byte outside the buffer
    written; [DMore]: the list ended first. *)
Inductive rd := RMallocFail | RIntr | RFail | RSome (n : nat).
Inductive desc_res := DOk (s : list Z) | DNull | DBad | DMore.
Fixpoint desc_loop (pg : Z) (os : list rd) (rest got : list Z) (alloc : Z) : desc_res :=
  match os with
  | [] => DMore
  | a :: r =>
      let grow := alloc <=? zlen got + 1024 in
      let alloc' := if grow then alloc + pg else alloc in
      match a with
      | RMallocFail => if grow then DNull else desc_loop pg r rest got alloc   (* not consulted *)
      | RIntr => desc_loop pg r rest got alloc'
      | RFail => DNull
      | RSome n =>
          match rest with
          | [] => if zlen got <? alloc' then DOk got else DBad                 (* desc[sz] = 0 *)
          | _ =>
              let k := Nat.min (S n) (Z.to_nat (alloc' - zlen got)) in
              if alloc' - zlen got <? 1 then DBad
              else desc_loop pg r (skipn k rest) (got ++ firstn k rest) alloc'
          end
      end
  end.
