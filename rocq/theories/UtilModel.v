(** The compilers that libcare-pkgbuild replaces: overwrite_utils, scripts/pkgbuild. *)
From Coq Require Import String.
From Verif Require Import Base StorageModel TextModel LoptModel.
Open Scope list_scope.

(** Looking a command up: the first directory of PATH with an executable of that name.  Simplifications: no functions or
    aliases of these names in the shell, and no slash in them; no empty entries in PATH. *)
Definition at_dir (d n : text) : text := d ++ str "/" ++ n.
Fixpoint lookup (exec : text -> bool) (path : list text) (n : text) : option text :=
  match path with
  | [] => None
  | d :: r => if exec (at_dir d n) then Some (at_dir d n) else lookup exec r n
  end.
Fixpoint dir_with (exec : text -> bool) (path : list text) (n : text) : option text :=
  match path with
  | [] => None
  | d :: r => if exec (at_dir d n) then Some d else dir_with exec r n
  end.

Section Overwrite.
(** What is executable before, and PATH *)
Variable exec : text -> bool.
Variable path : list text.
(** TMPBIN, the new directory mktemp makes, line 445 *)
Variable tmp : text.
(** KPATCH_PATH, lines 58-59: `dirname ""` is a dot.  Simplification: no slash at the end of a directory in PATH. *)
Definition kpatch_path : text := match dir_with exec path (str "libcare-cc") with Some d => d | None => str "." end.
(** Where the links lead, lines 448-451: a relative target is one from the directory of the link *)
Definition target : text :=
  let t := at_dir kpatch_path (str "libcare-cc") in
  if begins (str "/") t then t else at_dir tmp t.
(** The links that are left, lines 448-460 *)
Definition links : list text :=
  filter (fun n => if list_eqb n (str "cc") then true else exec (at_dir (str "/usr/bin") n)) [str "gcc"; str "cc"; str "g++"; str "c++"].
Definition is_link (p : text) : bool := existsb (fun n => list_eqb p (at_dir tmp n)) links.
(** What is executable behind them: a link is if its target is *)
Definition exec' (p : text) : bool := if is_link p then exec target else exec p.
Definition path' : list text := tmp :: path.                                    (* line 462 *)
(** The program that runs when a command is given by its name *)
Definition runs_before (n : text) : option text := lookup exec path n.
Definition runs_after (n : text) : option text :=
  match lookup exec' path' n with
  | None => None
  | Some p => Some (if is_link p then target else p)
  end.
(** Lines 464-467: whether the script goes on *)
Definition overwritten : bool :=
  match lookup exec' path' (str "cc") with Some p => list_eqb p (at_dir tmp (str "cc")) | None => false end.
End Overwrite.
