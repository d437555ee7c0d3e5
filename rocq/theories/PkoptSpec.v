(** What the usage text of libcare-pkgbuild promises, without the functions of the model. *)
From Coq Require Import String.
From Verif Require Import Base StorageModel TextModel PkoptModel.
Open Scope list_scope.

Definition SLASH := 47. Definition DASH := 45.
(** An option that says what to do *)
Inductive option_word : text -> action -> Prop :=
| O_p : option_word (str "-p") Prebuild
| O_prebuild : option_word (str "--prebuild") Prebuild
| O_t : option_word (str "-t") Test
| O_test : option_word (str "--test") Test.
Definition help_word (w : text) : Prop := w = str "-h" \/ w = str "--help".
(** The action: that of the last option, or to build *)
Definition asked (opts : list text) (a : action) : Prop :=
  opts = [] /\ a = Build \/ exists o w, opts = o ++ [w] /\ option_word w a.
Definition options (l : list text) : Prop := Forall (fun w => exists a, option_word w a) l.
(** A word that names a directory *)
Definition dir_word (d : text) : Prop := d <> [] /\ forall r, d <> DASH :: r.
(** The directory named by a word; [cd p]: the full name of the directory p *)
Definition ends_in_slash (p : text) : Prop := exists q, p = q ++ [SLASH].
Definition simple (n : text) : Prop := n <> [] /\ ~ In SLASH n.
Inductive lies_at (cd : text -> option text) : text -> text -> Prop :=
| A_name n k A : simple n -> cd (str ".") = Some A -> lies_at cd (n ++ repeat SLASH k) (A ++ SLASH :: n)
| A_root j n k A : simple n -> cd (str "/") = Some A -> lies_at cd (repeat SLASH (S j) ++ n ++ repeat SLASH k) (A ++ SLASH :: n)
| A_path p j n k A : simple n -> p <> [] -> ~ ends_in_slash p -> cd p = Some A ->
    lies_at cd (p ++ repeat SLASH (S j) ++ n ++ repeat SLASH k) (A ++ SLASH :: n).
(** No characters at which the shell cuts *)
Definition plain (s : text) : Prop := forall c, In c s -> c <> 32 /\ c <> 9 /\ c <> 10.
(** The work of an action: the compilers are replaced and the environment prepared; then *)
Inductive work : action -> list step -> Prop :=
| W_prebuild : work Prebuild [OverwriteUtils; EnvHook; PrepareSource; PrebuildHook; DoPrebuild; PackPrebuilt]
| W_build : work Build [OverwriteUtils; EnvHook; UnpackPrebuilt; PatchSource; BuildHook; DoBuild; SanityCheck; GenKpatch; PackPatch]
| W_test : work Test [OverwriteUtils; EnvHook; UnpackPrebuilt; PrepareTestBinaries; UnpackPatch; PatchTest].
(** The steps that were taken, and the status: all of them, or up to the first that failed *)
Definition carried_out (works : step -> bool) (l done : list step) (z : Z) : Prop :=
  (z = 0 /\ done = l /\ forall s, In s l -> works s = true) \/
  (z = 1 /\ exists before s after, l = before ++ s :: after /\ done = before ++ [s] /\ works s = false /\
     forall t, In t before -> works t = true).
