(** The command line of libcare-pkgbuild and the order of its work, scripts/pkgbuild. *)
From Coq Require Import String.
From Verif Require Import Base StorageModel TextModel LoptModel InstModel.
Open Scope list_scope.

(** dirname(1) and basename(1), used at line 52 *)
Fixpoint no_slashes_behind (r : text) : text := match r with 47 :: r' => no_slashes_behind r' | _ => r end.
Definition unslashed (s : text) : text := rev (no_slashes_behind (rev s)).
Fixpoint upto_slash (r : text) : text := match r with [] => [] | c :: r' => if c =? 47 then [] else c :: upto_slash r' end.
Fixpoint from_slash (r : text) : option text := match r with [] => None | c :: r' => if c =? 47 then Some r' else from_slash r' end.
Definition basename (s : text) : text :=
  match s with
  | [] => []
  | _ => match unslashed s with [] => str "/" | u => rev (upto_slash (rev u)) end
  end.
Definition dirname (s : text) : text :=
  match unslashed s with
  | [] => match s with [] => str "." | _ => str "/" end
  | u => match from_slash (rev u) with
         | None => str "."
         | Some r => match no_slashes_behind r with [] => str "/" | d => rev d end
         end
  end.

Inductive action := Prebuild | Build | Test.

Section Pkgbuild.
(** `cd "$d" && pwd`: [None] if the directory cannot be entered *)
Variable cd : text -> option text.

(** Line 52: the status is that of the last command substitution, so that a directory that cannot be entered goes
    unnoticed, and what the first prints is empty then.  Simplification: names that end with a newline are not treated. *)
Definition project_dir (w : text) : text :=
  (match cd (dirname w) with Some d => d | None => [] end) ++ str "/" ++ basename w.

(** prepare, lines 30-56 *)
Inductive parsed := Go (a : action) (pdir : text) | Help | Unknown (w : text).
Definition is_one (w : text) (a b : string) : bool := list_eqb w (str a) || list_eqb w (str b).
Fixpoint prepare (args : list text) (a : action) (pdir : text) : parsed :=
  match args with
  | [] => Go a pdir
  | w :: r =>
      if list_eqb w [] then Go a pdir                                          (* 34: the loop ends at an empty word *)
      else if is_one w "-p" "--prebuild" then prepare r Prebuild pdir
      else if is_one w "-t" "--test" then prepare r Test pdir
      else if is_one w "-h" "--help" then Help
      else if negb (list_eqb pdir []) || begins (str "-") w then Unknown w
      else prepare r a (project_dir w)
  end.

(** What main does, lines 475-510; the functions of kind kp_... are called by their names *)
Inductive step :=
  OverwriteUtils | EnvHook | PrepareSource | PrebuildHook | DoPrebuild | PackPrebuilt | UnpackPrebuilt | PatchSource | BuildHook
| DoBuild | SanityCheck | GenKpatch | PackPatch | PrepareTestBinaries | UnpackPatch | PatchTest.
Definition steps (a : action) : list step :=
  [OverwriteUtils; EnvHook] ++
  match a with
  | Prebuild => [PrepareSource; PrebuildHook; DoPrebuild; PackPrebuilt]
  | Build => [UnpackPrebuilt; PatchSource; BuildHook; DoBuild; SanityCheck; GenKpatch; PackPatch]
  | Test => [UnpackPrebuilt; PrepareTestBinaries; UnpackPatch; PatchTest]
  end.
Inductive event := Sourced (f : text) (args : list text) | Removed (l : list text) | Ran (s : step).

(** The file `info`: the value it gives to KP_PROJECT_BUILD_ROOT; [None]: there is no such file, or a command in it fails.
    Simplification: it changes none of the script's own variables and functions used here. *)
Variable info : text -> option text.
(** Whether a step succeeds *)
Variable works : step -> bool.
(** `set -e`, lines 9-11: the first failure ends the script *)
Fixpoint run (l : list step) : list event * Z :=
  match l with
  | [] => ([], 0)
  | s :: r => if works s then let '(es, z) := run r in (Ran s :: es, z) else ([Ran s], 1)
  end.
(** main, with the end of prepare, lines 58-71, and clean_dirs, 73-76.  No variable is quoted, so that the shell cuts them
    into words.  Simplifications: no * ? or [ in them; rm -rf succeeds. *)
Definition main (args : list text) : list event * Z :=
  match prepare args Build [] with
  | Help => ([], 0)
  | Unknown _ => ([], 1)
  | Go a pdir =>
      match split_words [] (pdir ++ str "/info") with
      | [] => ([], 1)                                                          (* not reached *)
      | f :: argv =>
          match info f with
          | None => ([Sourced f argv], 1)
          | Some root =>
              let '(es, z) := run (steps a) in
              (Sourced f argv ::
               Removed (split_words [] root ++ split_words [] (pdir ++ str "/root.original") ++ split_words [] (pdir ++ str "/root.patched")) :: es, z)
          end
      end
  end.
End Pkgbuild.
