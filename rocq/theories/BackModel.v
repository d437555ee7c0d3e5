(** kp_install_files in the direction to_prebuild, scripts/pkgbuild:291-313; it is called by kp_prepare_test_binaries of a package
    (packages/rhel7/glibc/glibc-2.17-55.el7/info:101-107), to put the programs of the original package where they were built. *)
From Coq Require Import String.
From Verif Require Import Base StorageModel PkgModel InstModel.
Open Scope list_scope.

(** [src]: the files of root.original, [dest]: those of the build directory, by names without slashes in front.  [None]: `install` finds
    no such file, or a word is left over; with `set -e` the script ends. *)
Fixpoint install_back (src : list Z -> option (list Z)) (ws : list (list Z)) (dest : list (list Z * list Z)) : option (list (list Z * list Z)) :=
  match ws with
  | [] => Some dest
  | [_] => None
  | b :: i :: r =>
      if list_eqb i (str "IGNORE") then install_back src r dest
      else match src (no_slashes i) with
           | None => None
           | Some c => install_back src r (put (no_slashes b) c dest)
           end
  end.
(** `eval set -- $files`, line 297 *)
Definition prepare_test (files : list Z) (src : list Z -> option (list Z)) (dest : list (list Z * list Z)) : option (list (list Z * list Z)) :=
  install_back src (split_words [] files) dest.
