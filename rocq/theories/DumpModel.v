(** libcare-dump.c: showing the header of a patch file and taking the object file out of
    it.  Definitions only. *)
From Coq Require Import String.
From Verif Require Import Base StorageModel.
Open Scope list_scope.

(** The system: the file a name stands for (names may be links), whether a name can be
    opened for reading or created for writing, whether fstat and mmap succeed; the
    results of read and write for a number of bytes.  Files by number; [None]: there is
    none. *)
Record dworld := {
  d_ino : list Z -> Z; d_open : list Z -> bool; d_create : list Z -> bool;
  d_stat : bool; d_map : bool; d_read : Z -> Z; d_write : Z -> Z }.
Definition files := Z -> option (list Z).
Definition put (fs : files) (i : Z) (d : list Z) : files :=
  fun j => if j =? i then Some d else fs j.

(** sizeof(struct kpatch_file), include/kpatch_file.h:130-180 *)
Definition kp_size : Z := 504.
Definition nl : list Z := [10].

(** st.st_size - sizeof(struct kpatch_file) as an int, libcare-dump.c:64, 110 *)
Definition elf_size (size : Z) : Z := s32 (size - kp_size).

(** printf("%-25s ", label), lines 76-79 *)
Definition label (s : list Z) : list Z := s ++ repeat 32 (25 - length s) ++ [32].

(** printf("%s") of the bytes of the structure from [off] on: up to a NUL.  [None]: there
    is none in the bytes that were read, printf goes on behind them. *)
Fixpoint until_nul (l : list Z) : option (list Z) :=
  match l with
  | [] => None
  | c :: t => if c =? 0 then Some [] else match until_nul t with Some r => Some (c :: r) | None => None end
  end.
Definition field (kp : list Z) (off : Z) : option (list Z) := until_nul (skipn (Z.to_nat off) kp).

(** kpatch_dump_kpatch_header, libcare-dump.c:46-87: result and output.  The offsets are
    those of magic, id and buildid. *)
Definition dump_header (w : dworld) (fs : files) (inp : list Z) : Z * option (list Z) :=
  match (if d_open w inp then fs (d_ino w inp) else None) with
  | None => (-1, Some (str "Can't open kpatch file '" ++ inp ++ str "'" ++ nl))
  | Some d =>
      if negb (d_stat w) then (-1, Some (str "Can't stat kpatch file" ++ nl))
      else if elf_size (zlen d) <=? 0 then
        (-1, Some (str "Invalid kpatch file '" ++ inp ++ str "'" ++ nl))
      else
        let rv := d_read w kp_size in
        if rv <=? 0 then (-1, Some (str "Read kpatch file '" ++ inp ++ str "' failed." ++ nl))
        else
          let kp := firstn (Z.to_nat rv) d in
          (0, match field kp 0, field kp 8, field kp 88 with
              | Some m, Some i, Some b =>
                  Some (label (str "Patch Name:") ++ inp ++ nl
                        ++ label (str "Magic:") ++ m ++ nl
                        ++ label (str "Patch id:") ++ i ++ nl
                        ++ label (str "buildid:") ++ b ++ nl)
              | _, _, _ => None
              end)
  end.

(** kpatch_convert_to_elf, libcare-dump.c:89-151: result, files, output.  The mapping is
    private but not written to, so what it shows changes with the file: if the output is
    the same file, opening it with O_TRUNC leaves nothing behind the mapping and write
    fails (EFAULT). *)
Definition convert (w : dworld) (fs : files) (inp out : list Z) : Z * files * list Z :=
  match (if d_open w inp then fs (d_ino w inp) else None) with
  | None => (-1, fs, str "Can't open kpatch file '" ++ inp ++ str "'" ++ nl)
  | Some d =>
      let size := elf_size (zlen d) in
      if negb (d_stat w) then (-1, fs, str "Can't stat kpatch file" ++ nl)
      else if size <=? 0 then (-1, fs, str "Invalid kpatch file '" ++ inp ++ str "'" ++ nl)
      else if negb (d_map w) then (-1, fs, str "Can't map kpatch file" ++ nl)
      else
        let elf := skipn (Z.to_nat kp_size) d in
        (* behind the end of the file the page is zero *)
        if negb (list_eqb (firstn 4 (elf ++ repeat 0 4)) [127; 69; 76; 70]) then
          (-1, fs, str "check elf format failed" ++ nl)
        else if negb (d_create w out) then
          (-1, fs, str "Can't create output file '" ++ out ++ str "'" ++ nl)
        else
          let same := d_ino w inp =? d_ino w out in
          let rv := if same then -1 else d_write w size in
          let fs' := put fs (d_ino w out) (firstn (Z.to_nat rv) elf) in
          if rv =? size then (0, fs', []) else (-1, fs', str "Write error" ++ nl)
  end.

(** getopt(argc, argv, "H::i:o:c::"), libcare-dump.c:162: operands are skipped; H and c
    take the rest of their word as an (ignored) argument.  Only the first option that is
    not known matters. *)
Inductive devent := DFlag (c : Z) | DArg (c : Z) (a : list Z) | DBad.
Definition ch_H : Z := 72.   Definition ch_c : Z := 99.
Definition ch_in : Z := 105. Definition ch_o : Z := 111.
(** One word without its dash, which is not empty: the event, or the option that wants
    the next word. *)
Definition scan_opt (c : Z) (t : list Z) : devent + Z :=
  if (c =? ch_H) || (c =? ch_c) then inl (DFlag c)
  else if (c =? ch_in) || (c =? ch_o) then match t with [] => inr c | _ => inl (DArg c t) end
  else inl DBad.
Fixpoint dgetopt (args : list (list Z)) : list devent :=
  match args with
  | [] => []
  | a :: r =>
      match a with
      | 45 :: c :: t =>
          if list_eqb a [45; 45] then []
          else match scan_opt c t with
               | inl e => e :: dgetopt r
               | inr o => match r with
                          | [] => [DBad]
                          | b :: r' => DArg o b :: dgetopt r'
                          end
               end
      | _ => dgetopt r
      end
  end.

(** The loop over the options, libcare-dump.c:162-182; [None]: usage. *)
Record dopts := { do_head : bool; do_conv : bool; do_in : option (list Z); do_out : option (list Z) }.
Definition dopt0 : dopts := {| do_head := false; do_conv := false; do_in := None; do_out := None |}.
Fixpoint dloop (es : list devent) (s : dopts) : option dopts :=
  match es with
  | [] => Some s
  | DBad :: _ => None
  | DFlag c :: r =>
      dloop r (if c =? ch_H
               then {| do_head := true; do_conv := do_conv s; do_in := do_in s; do_out := do_out s |}
               else {| do_head := do_head s; do_conv := true; do_in := do_in s; do_out := do_out s |})
  | DArg c a :: r =>
      dloop r (if c =? ch_in
               then {| do_head := do_head s; do_conv := do_conv s; do_in := Some a; do_out := do_out s |}
               else {| do_head := do_head s; do_conv := do_conv s; do_in := do_in s; do_out := Some a |})
  end.

(** What main comes to, libcare-dump.c:153-205. *)
Inductive dres := DUsage | DNothing | DHead (inp : list Z) | DConv (inp out : list Z).
Definition dump_args (args : list (list Z)) : dres :=
  match dloop (dgetopt args) dopt0 with
  | None => DUsage
  | Some s =>
      match do_in s with
      | None => DUsage
      | Some i => if do_head s then DHead i
                  else match do_out s with
                       | None => DUsage
                       | Some o => if do_conv s then DConv i o else DNothing
                       end
      end
  end.
(** Exit status of main (-1 is 255 to the caller) and the files. *)
Definition dump_main (w : dworld) (fs : files) (args : list (list Z)) : Z * files :=
  match dump_args args with
  | DUsage | DNothing => (-1, fs)
  | DHead i => (fst (dump_header w fs i), fs)
  | DConv i o => let '(r, fs', _) := convert w fs i o in (r, fs')
  end.
