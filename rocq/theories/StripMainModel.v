(** kpatch_strip as a program: a whole file through --rel-fixup, and main
    (/repo/src/kpatch_strip.c:66-83, 579-643, 935-1041).  Definitions only. *)
From Coq Require Import String.
From Verif Require Import Base RelocModel TextModel StorageModel StripModel FixupModel.
Open Scope list_scope.

(** kpatch_fixup_rela for the section number [i], 508-577: its relocations and the section
    they are for are read from and stored into the file.  Simplified: a section of type RELA
    has relocations as content, and one that is not relocated as bytes has none. *)
Definition put_bytes (t : sec) (bs : list Z) : sec := match s_data t with CBytes _ => with_data t (CBytes bs) | CRelas _ => t end.
Definition fixup_sec (A : farch) (dyn : list text) (orig p : obj) (i : nat) (s : sec) : fixed obj :=
  match s_data s, nth_error (o_secs p) (Z.to_nat (s_info s)) with
  | CRelas rs, Some t =>
      match fixup_relas A dyn orig p (o_syms p) rs (s_addr t) (info_bytes (s_data t)) with
      | FOk (rs', ys, bs') =>
          FOk (with_syms (with_secs p (set_nth (set_nth (o_secs p) (Z.to_nat (s_info s)) (put_bytes t bs')) i (with_data s (CRelas rs')))) ys)
      | FErr => FErr | FDie => FDie | FCrash => FCrash
      end
  | _, _ => FErr
  end.
(** kpatch_rel_fixup, 579-643: the sections from 1 on *)
Fixpoint fixup_secs (A : farch) (dyn : list text) (orig : obj) (is : list nat) (p : obj) : fixed obj :=
  match is with
  | [] => FOk p
  | i :: r =>
      match nth_error (o_secs p) i with
      | None => FErr
      | Some s =>
          if s_type s =? SHT_RELA then
            match fixup_sec A dyn orig p i s with
            | FOk p' => fixup_secs A dyn orig r p'
            | FErr => FErr | FDie => FDie | FCrash => FCrash
            end
          else if s_type s =? SHT_REL then FErr
          else fixup_secs A dyn orig r p
      end
  end.
Definition rel_fixup (A : farch) (dyn : list text) (orig patch : obj) : fixed obj :=
  if load_ok (o_secs orig) && load_ok (o_secs patch)
  then fixup_secs A dyn orig (seq 1 (length (o_secs patch) - 1)) patch
  else FErr.

(** ** The command line *)
(** The modes that can be asked for, 47-51 *)
Inductive mode := MStrip | MFixup | MUndo.
(** One option, 971-985: a mode, or what leads to the usage text.  "o:" in the option string is
    among the latter. *)
Definition flag_mode (c : Z) : option mode :=
  if c =? 115 then Some MStrip else if c =? 114 then Some MFixup else if c =? 117 then Some MUndo else None.
(** getopt_long of glibc with the options of 948-953: a name may be cut short as long as only
    one option begins with it; "=" and a value is an error, as none takes one. *)
Fixpoint begins (a b : list Z) : bool :=
  match a, b with [], _ => true | x :: r, y :: s => (x =? y) && begins r s | _, [] => false end.
Definition long_mode (n : list Z) : option mode :=
  match filter (fun o => begins n (fst o)) [(str "strip", MStrip); (str "rel-fixup", MFixup); (str "undo-link", MUndo)] with
  | [(_, m)] => Some m
  | _ => None
  end.
(** The options in order, [None] for one that is wrong, which is the last that is looked at;
    and the operands.  "+": options end at the first operand. *)
Fixpoint scan_args (args : list (list Z)) : list (option mode) * list (list Z) :=
  match args with
  | [] => ([], [])
  | a :: r =>
      match a with
      | 45 :: 45 :: [] => ([], r)
      | 45 :: 45 :: n => let '(es, ops) := scan_args r in (long_mode n :: es, ops)
      | 45 :: c :: t => let '(es, ops) := scan_args r in (map flag_mode (c :: t) ++ es, ops)
      | _ => ([], a :: r)
      end
  end.
(** 955-961, 971-989: [None] is the usage text. *)
Fixpoint set_modes (m : option mode) (es : list (option mode)) : option (option mode) :=
  match es with
  | [] => Some m
  | None :: _ => None
  | Some n :: r => match m with Some _ => None | None => set_modes (Some n) r end
  end.
Inductive sargs := SUsage | SRun (m : mode) (f1 f2 : list Z).
Definition strip_args (args : list (list Z)) : sargs :=
  let '(es, ops) := scan_args args in
  match set_modes None es, ops with
  | Some (Some m), [f1; f2] => SRun m f1 f2
  | _, _ => SUsage
  end.

(** The files: what is in them, as an object file or as something else, and whether they may
    be written. *)
Record sfile := { sf_obj : option obj; sf_write : bool }.
Definition sfiles : Type := list Z -> option sfile.
Definition fput (fs : sfiles) (n : list Z) (f : sfile) : sfiles := fun m => if list_eqb m n then Some f else fs m.
(** What is done to the files: [SOpen name create]: open, 66-83, and whether it gave a
    descriptor; [SClose name]. *)
Inductive sev := SOpen (name : list Z) (create ok : bool) | SClose (name : list Z).
(** kpatch_open_elf: both files are opened for reading and writing.  The result: the files,
    whether there is a descriptor, and whether there is an object.  A file to be created is
    written from the start, whatever is in it.  Simplified: elf_begin succeeds if and only if
    the file is one of ELF; what may be created is [mk]. *)
Definition open_elf (mk : list Z -> bool) (fs : sfiles) (n : list Z) (create : bool) : sfiles * bool * bool :=
  match fs n with
  | Some f => if sf_write f then (fs, true, create || match sf_obj f with Some _ => true | None => false end) else (fs, false, false)
  | None => if create && mk n then (fput fs n {| sf_obj := None; sf_write := true |}, true, true) else (fs, false, false)
  end.
(** The three actions on the two files' objects; [None]: failed, and nothing was written.
    [bias]: is there something to do in kpatch_arch_fixup_addr_bias. *)
Definition run_mode (A : farch) (dyn : list text) (bias : bool) (m : mode) (o1 : obj) (o2 : option obj) : option obj :=
  match m, o2 with
  | MStrip, _ => strip o1
  | MFixup, Some p => match rel_fixup A dyn o1 p with FOk p' => Some p' | _ => None end
  | MUndo, Some p => undo_link bias o1 p
  | _, None => None
  end.
(** main, 963-1041: the result (-1 is 255 for the caller), the files, the events. *)
Definition strip_main (A : farch) (dyn : list text) (bias : bool) (mk : list Z -> bool) (fs : sfiles) (args : list (list Z)) : Z * sfiles * list sev :=
  match strip_args args with
  | SUsage => (-1, fs, [])
  | SRun m f1 f2 =>
      let '(fs1, d1, e1) := open_elf mk fs f1 false in
      let c1 := if d1 then [SClose f1] else [] in
      if negb e1 then (-1, fs1, SOpen f1 false d1 :: c1)
      else
        let create := match m with MStrip => true | _ => false end in
        let '(fs2, d2, e2) := open_elf mk fs1 f2 create in
        let c2 := if d2 then [SClose f2] else [] in
        let evs := [SOpen f1 false d1; SOpen f2 create d2] ++ c1 ++ c2 in
        if negb e2 then (-1, fs2, evs)
        else
          match fs2 f1, fs2 f2 with
          | Some {| sf_obj := Some o1 |}, Some x2 =>
              match run_mode A dyn bias m o1 (sf_obj x2) with
              | Some o => (0, fput fs2 f2 {| sf_obj := Some o; sf_write := sf_write x2 |}, evs)
              | None => (-1, fs2, evs)
              end
          | _, _ => (-1, fs2, evs)
          end
  end.
