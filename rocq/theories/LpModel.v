(** The script that makes patches: /repo/src/libcare-patch-make.  Definitions only.

    Simplifications.  Files have absolute names; directories, permissions and the changes of
    directory (136-139, 147-149) are left out.  The editing of config-host.mak (86-100, 154-156,
    166-167) and the options' parsing (222-270), whose results are the parameters of [main], are
    in LoptModel.  What other programs do (make, the tools) is an oracle.  A signal is
    taken to arrive while such a program runs; the shell runs the trap when the program has ended
    and goes on. *)
From Coq Require Import String.
From Verif Require Import Base StorageModel TextModel.
Open Scope list_scope.

(** * Files *)
Inductive node := File (content : text) (mtime : Z) | Link (target : text).
Definition fs := list (text * node).
Definition teq (a b : text) : bool := if list_eq_dec Z.eq_dec a b then true else false.
Fixpoint lookup (p : text) (f : fs) : option node :=
  match f with [] => None | (q, n) :: f' => if teq q p then Some n else lookup p f' end.
Definition unlink (p : text) (f : fs) : fs := filter (fun e => negb (teq (fst e) p)) f.
Definition store (p : text) (n : node) (f : fs) : fs := (p, n) :: unlink p f.
(** ln -s fails if the name is taken *)
Definition symlink (target p : text) (f : fs) : fs := match lookup p f with Some _ => f | None => (p, Link target) :: f end.
(** mv a b *)
Definition mv (a b : text) (f : fs) : fs := match lookup a f with Some n => store b n (unlink a f) | None => f end.
(** realpath: links are followed, as many as the kernel would *)
Fixpoint realpath (n : nat) (p : text) (f : fs) : option text :=
  match n with
  | O => None
  | S n => match lookup p f with Some (File _ _) => Some p | Some (Link q) => realpath n q f | None => None end
  end.

(** * Backups: restore_origs, 71-82 *)
Definition ORIG := str ".lpmakeorig".
Definition is_digit (c : Z) : bool := (48 <=? c) && (c <=? 57).
Fixpoint drop_digits (s : text) : text := match s with c :: r => if is_digit c then drop_digits r else s | [] => [] end.
(** The name without the suffix, if it matches the expressions of 72 and 75; on reversed names *)
Definition base_of (p : text) : option text :=
  let r := rev p in
  let n := List.length ORIG in
  if teq (firstn n r) (rev ORIG) then
    let d := skipn n r in
    match drop_digits d with
    | c :: b => if (c =? 46) && (zlen (c :: b) <? zlen d) && negb (teq b []) then Some (rev b) else None
    | [] => None
    end
  else None.
(** Names the shell passes on as they are: letters, digits and . / _ - + , (80 builds a command
    from the names without quoting them; with any other character the command fails) *)
Definition plain_char (c : Z) : bool := is_digit c || ((65 <=? c) && (c <=? 90)) || ((97 <=? c) && (c <=? 122)) || existsb (Z.eqb c) [43; 44; 45; 46; 47; 95].
Definition plain (p : text) : bool := forallb plain_char p.
(** 77-78: of the names with the same base, the least *)
Definition least (o : text) (v : option text) : option text :=
  match v with Some w => if 0 <? strcmp w o then Some o else Some w | None => Some o end.
Definition version (b : text) (names : list text) : option text :=
  fold_left (fun v o => match base_of o with Some b' => if teq b' b then least o v else v | None => v end) names None.
Definition bases (names : list text) : list text :=
  nodup (list_eq_dec Z.eq_dec) (flat_map (fun o => match base_of o with Some b => [b] | None => [] end) names).
Definition restore_origs (f : fs) : fs :=
  let names := map fst f in
  fold_left (fun g b => match version b names with Some o => if plain o && plain b then mv o b g else g | None => g end) (bases names) f.

(** * patch -b -z SUFFIX -p1, called in 144: what a patch file does to each file it names; the
    contents are given and returned as an option, for a file that is created or deleted.  GNU
    patch moves the old file to its name with the suffix, over what is there; for a file that
    does not exist it puts an empty one.  A patch names a file once (several changes of one file
    make one backup). *)
Definition edits := list (text * (option text -> option text)).
Definition content_of (n : option node) : option text := match n with Some (File c _) => Some c | _ => None end.
Definition patch_one (suffix : text) (now : Z) (f : fs) (e : text * (option text -> option text)) : fs :=
  let '(p, ed) := e in
  let old := lookup p f in
  let f := store (p ++ suffix) (match old with Some n => n | None => File [] now end) f in
  match ed (content_of old) with Some c => store p (File c now) f | None => unlink p f end.
Definition patch_run (suffix : text) (now : Z) (es : edits) (f : fs) : fs := fold_left (patch_one suffix now) es f.

(** * The state: files, the time, what was called *)
Inductive stage := Original | Patched.
Inductive event := EMake (s : stage) | EClean | EInstall (s : stage) | EPatch (n : nat) | EKpatch (p : text).
Record machine := Mach { files : fs; clock : Z; trace : list event }.
Definition with_files (m : machine) (f : fs) : machine := Mach f (clock m) (trace m).
Definition note (e : event) (m : machine) : machine := Mach (files m) (clock m) (trace m ++ [e]).
Definition tick (m : machine) : machine := Mach (files m) (clock m + 1) (trace m).

(** What make and make install do, at a time: [make_], [install_]; [clean_]: make clean with rm -rf
    of the two directories, 121-122 *)
Record world := World {
  make_ : stage -> Z -> fs -> fs;
  install_ : stage -> Z -> fs -> fs;
  clean_ : fs -> fs;
  signal_ : Z -> bool }.

Section Script.
Variable w : world.
Variable cc libcare real : text.                  (* SYMBOLINK_CC, LIBCARE_CC, REAL_CC, 56-58 *)
(** replace_cc_symbolink, 102-105; recover_cc_symbolink, 107-110 *)
Definition replace_cc (m : machine) : machine := with_files m (symlink libcare cc (unlink cc (files m))).
Definition recover_cc (m : machine) : machine := with_files m (symlink real cc (unlink cc (files m))).
(** A program is run; then the trap, 112 *)
Definition run (e : event) (f : Z -> fs -> fs) (m : machine) : machine :=
  let m := tick m in
  let m := note e (with_files m (f (clock m) (files m))) in
  if signal_ w (clock m) then recover_cc m else m.

(** The loop of 141-145: i stays 0 *)
Definition BACKUP := str ".0.lpmakeorig".
Fixpoint patches (n : nat) (ps : list edits) (m : machine) : machine :=
  match ps with
  | [] => m
  | es :: ps' => patches (S n) ps' (run (EPatch n) (fun now f => patch_run BACKUP now es f) m)
  end.
(** build_objects, 114-168; whether a program failed is never asked *)
Definition build_objects (do_clean : bool) (ps : list edits) (m : machine) : machine :=
  let m := with_files m (restore_origs (files m)) in                                   (* 115 *)
  let m := if do_clean then run EClean (fun _ => clean_ w) m else m in                 (* 120-123 *)
  let m := run (EMake Original) (make_ w Original) m in                                (* 129 *)
  let m := run (EInstall Original) (install_ w Original) m in                          (* 132-134 *)
  let m := patches 0 ps m in                                                           (* 141-145 *)
  let m := run (EMake Patched) (make_ w Patched) m in                                  (* 159 *)
  run (EInstall Patched) (install_ w Patched) m.                                       (* 162-164 *)
End Script.

(** * build_kpatches, 170-219.  The tools as functions of the contents of the files: build id
    (empty: none), whether there is a .kpatch section, kpatch_strip, strip, kpatch_make; [None]
    is a failure *)
Record tools := Tools {
  build_id : text -> text;
  has_kpatch : text -> bool;
  strip_ : text -> option text;
  fixup_ : text -> text -> option text;
  unneeded_ : text -> option text;
  undo_ : text -> text -> option text;
  make_kpatch : text -> text -> text -> option text }.
Inductive turn := Next (f : fs) (made : option text) | Exit1 (f : fs).
Section Tools.
Variable t : tools.
Variable root : text.                              (* LPMAKE_PATCHROOT *)
Variable id : text.                                (* patch_id *)
Variable given : option text.                      (* --buildid *)
Definition kpatch_name (b : text) : text := root ++ str "/" ++ b ++ str ".kpatch".
(** The body of the loop, 175-218, for an executable and its patched version; chmod is left out,
    and so is the check of 200-203, which is never reached with another status than 0 *)
Definition one_exec (now : Z) (orig patched : text) (f : fs) : turn :=
  match content_of (lookup orig f), content_of (lookup patched f) with
  | Some o, Some p =>
      if negb (has_kpatch t p) then Next f None                                        (* 181-183 *)
      else if teq (build_id t o) [] then Next f None                                   (* 185 *)
      else
        let bid := match given with Some b => b | None => build_id t o end in          (* 187-189 *)
        let stripped := patched ++ str ".stripped" in
        match strip_ t p with                                                          (* 192-197 *)
        | None => Exit1 f
        | Some s =>
            match fixup_ t o s with                                                    (* 198-199 *)
            | None => Next (store stripped (File s now) f) None
            | Some s2 =>
                match unneeded_ t s2 with                                              (* 204-208 *)
                | None => Exit1 (store stripped (File s2 now) f)
                | Some s3 =>
                    let s4 := match undo_ t o s3 with Some s4 => s4 | None => s3 end in  (* 209 *)
                    let f := store stripped (File s4 now) f in
                    match make_kpatch t bid id s4 with                                 (* 210-215 *)
                    | None => Exit1 f
                    | Some k => let f := store (patched ++ str ".kpatch") (File k now) f in
                                Next (store (kpatch_name bid) (File k now) f) (Some (kpatch_name bid))
                    end
                end
            end
        end
  | _, _ => Next f None
  end.
Fixpoint build_kpatches (now : Z) (execs : list (text * text)) (f : fs) (tr : list event) : turn * list event :=
  match execs with
  | [] => (Next f None, tr)
  | (o, p) :: execs' =>
      match one_exec now o p f with
      | Exit1 f => (Exit1 f, tr)
      | Next f (Some k) => build_kpatches now execs' f (tr ++ [EKpatch k])
      | Next f None => build_kpatches now execs' f tr
      end
  end.
End Tools.

(** main, 272-288, with prepare_env, 32-69, and the trap on exit, 84: the exit status and what is
    left.  [gensrc]: whether the tools are there (38); [execs]: what find prints, each with its
    counterpart in the patched directory. *)
Definition main_checked (w : world) (t : tools) (cc libcare proot : text) (gensrc do_clean only_update : bool) (id : text) (given : option text)
  (ps : list edits) (execs : list (text * text)) (m : machine) : Z * machine :=
  if negb gensrc then (1, with_files m (restore_origs (files m)))                      (* 38-41 *)
  else
    match realpath 40 cc (files m) with
    | None => (1, m)                      (* there is no compiler; not rendered further *)
    | Some real =>
        let m := replace_cc cc libcare m in
        let m := if only_update then m else build_objects w cc real do_clean ps m in
        let m := tick m in
        match build_kpatches t proot id given (clock m) execs (files m) (trace m) with
        | (Exit1 f, tr) => (1, Mach (restore_origs f) (clock m) tr)                    (* exit 1, the trap on exit *)
        | (Next f _, tr) => let m := recover_cc cc real (Mach f (clock m) tr) in
                            (0, with_files m (restore_origs (files m)))
        end
    end.
(** The check of the id first, 272-275, in a locale of single bytes *)
Definition main (w : world) (t : tools) (cc libcare proot : text) (gensrc do_clean only_update : bool) (id : text) (given : option text)
  (ps : list edits) (execs : list (text * text)) (m : machine) : Z * machine :=
  if teq id [] || (7 <? zlen id) then (1, with_files m (restore_origs (files m)))
  else main_checked w t cc libcare proot gensrc do_clean only_update id given ps execs m.
