(** scripts/pkgbuild: putting the built programs into the tree patches are made from, and the
    comparison of symbols.  Definitions only. *)
From Coq Require Import String.
From Verif Require Import Base StorageModel PkgModel.
Open Scope list_scope.

(** ** KP_INSTALL_FILES *)

(** The words of a text, as `eval set -- $files` makes them (line 297).  Simplification: no
    quotes, backslashes, dollars, wildcards or other characters special to the shell. *)
Definition ws (c : Z) : bool := (c =? 32) || (c =? 9) || (c =? 10).
Fixpoint split_words (cur s : list Z) : list (list Z) :=
  match s with
  | [] => match cur with [] => [] | _ => [cur] end
  | c :: r => if ws c then match cur with [] => split_words [] r | _ => cur :: split_words [] r end
              else split_words (cur ++ [c]) r
  end.
Fixpoint no_slashes (p : list Z) : list Z := match p with c :: r => if c =? 47 then no_slashes r else p | [] => [] end.

(** kp_install_files in the direction from_prebuild, lines 291-313.  [src]: the files of the
    build directory, by names without leading slash.  The result are the files of
    root.patched, by such names too; [None]: `install` finds no such file, or a word is left
    over (shift 2 fails); with `set -e` the script ends. *)
Fixpoint install_files (src : list Z -> option (list Z)) (ws : list (list Z)) (dest : list (list Z * list Z))
  : option (list (list Z * list Z)) :=
  match ws with
  | [] => Some dest
  | [_] => None
  | b :: i :: r =>
      if list_eqb i (str "IGNORE") then install_files src r dest
      else match src (no_slashes b) with
           | None => None
           | Some c => install_files src r (put (no_slashes i) c dest)
           end
  end.

(** ${files#*/$p } differs from $files: "/", the name and a blank are somewhere in it
    (lines 328-333).  Simplification: no character of the name is special in a pattern. *)
Fixpoint prefixb (p s : list Z) : bool :=
  match p, s with
  | [], _ => true
  | a :: p', b :: s' => (a =? b) && prefixb p' s'
  | _, [] => false
  end.
Fixpoint contains (p s : list Z) : bool :=
  prefixb p s || match s with [] => false | _ :: r => contains p r end.
(** kp_check_missing_files, lines 315-341.  [built]: the executable files of the build
    directory (find, names without "./"); [patched]: one has a section with .kpatch in its
    name.  false: die. *)
Definition check_missing (files : list Z) (built : list (list Z)) (patched : list Z -> bool) : bool :=
  forallb (fun p => negb (patched p) || contains (47 :: p ++ [32]) files) built.
(** kp_install_generic, lines 343-351 *)
Definition install_generic (files : list Z) (src : list Z -> option (list Z)) (built : list (list Z)) (patched : list Z -> bool)
  : option (list (list Z * list Z)) :=
  match install_files src (split_words [] files) [] with
  | None => None
  | Some dest => if check_missing files built patched then Some dest else None
  end.

(** ** The symbols: de-offset-syms.awk *)

(** A row of the section headers and of the symbol table as readelf -WSs prints them.
    Simplification: given decoded; awk's numbers are exact (addresses below 2^53).  [y_shndx]:
    [None] for UND, ABS and COM. *)
Record srow := { r_num : Z; r_name : list Z; r_addr : Z }.
Record yrow := { y_value : Z; y_size : Z; y_type : list Z; y_shndx : option Z; y_name : list Z }.
Definition listing := (list srow * list yrow)%type.

(** The arrays of lines 3-16: the latest row of a number; -1 for a section with kpatch in its
    name, and 0 where there is none. *)
Definition sect_of (l : list srow) (n : Z) : option srow := find (fun r => r_num r =? n) (rev l).
Definition addr_of (l : list srow) (n : option Z) : Z :=
  match n with
  | None => 0
  | Some n => match sect_of l n with
              | None => 0
              | Some r => if n =? 0 then 0 else if contains (str "kpatch") (r_name r) then -1 else r_addr r
              end
  end.
Definition name_of (l : list srow) (n : option Z) : list Z :=
  match n with
  | None => []
  | Some n => match sect_of l n with None => [] | Some r => if n =? 0 then [] else r_name r end
  end.

Definition digit (c : Z) : bool := (48 <=? c) && (c <=? 57).
Definition alnum (c : Z) : bool := digit c || ((65 <=? c) && (c <=? 90)) || ((97 <=? c) && (c <=? 122)).
(** /^[[:alnum:]_]+\.[[:digit:]]+$/ *)
Fixpoint word_dot (started : bool) (s : list Z) : bool :=
  match s with
  | [] => false
  | c :: r => if alnum c || (c =? 95) then word_dot true r
              else started && (c =? 46) && (match r with [] => false | _ => forallb digit r end)
  end.
Definition skip_opt (p s : list Z) : list (list Z) := if prefixb p s then [skipn (length p) s; s] else [s].
(** /^_L_(robust_)?(cond_)?(timed)?(un)?lock/ *)
Definition lock_name (s : list Z) : bool :=
  prefixb (str "_L_") s &&
  existsb (prefixb (str "lock"))
    (flat_map (skip_opt (str "un")) (flat_map (skip_opt (str "timed")) (flat_map (skip_opt (str "cond_")) (skip_opt (str "robust_") (skipn 3 s))))).
(** skip_symbol, lines 18-23 *)
Definition skip_symbol (s : list Z) : bool :=
  prefixb (str "__") s || word_dot false s || lock_name s || prefixb (str ".L") s.
(** A line that is printed, lines 25-35: what is shown, not how. *)
Record sline := { l_off : Z; l_sect : list Z; l_size : Z; l_name : list Z }.
Definition de_offset (x : listing) : list sline :=
  flat_map (fun y =>
    if negb (y_value y =? 0) && (list_eqb (y_type y) (str "FUNC") || list_eqb (y_type y) (str "OBJECT"))
       && negb (skip_symbol (y_name y)) && negb (addr_of (fst x) (y_shndx y) =? -1)
    then [{| l_off := y_value y - addr_of (fst x) (y_shndx y); l_sect := name_of (fst x) (y_shndx y);
             l_size := y_size y; l_name := y_name y |}]
    else []) (snd x).

(** Sorted and compared by diff: the same lines, each as often. *)
Definition line_eqb (a b : sline) : bool :=
  (l_off a =? l_off b) && list_eqb (l_sect a) (l_sect b) && (l_size a =? l_size b) && list_eqb (l_name a) (l_name b).
Definition count (a : sline) (l : list sline) : nat := length (filter (line_eqb a) l).
Definition same_lines (l1 l2 : list sline) : bool := forallb (fun a => Nat.eqb (count a l1) (count a l2)) (l1 ++ l2).

(** One program of kp_sanity_check, lines 243-270: the debug file of the original ([None]: `ls`
    finds none; readelf is called without a file, fails, and with `set -e` the script ends), the
    original, the patched one.  [t_allowed]: there is a list of differences and it is the
    difference found ([None]: there is no such list).  Simplification: readelf does not fail on
    a file that is there; exactly one debug file is found. *)
Record target := { t_debug : option listing; t_orig : listing; t_new : listing; t_allowed : option bool }.
Definition sane_target (d : listing) (t : target) : bool :=
  let o := match de_offset d with [] => de_offset (t_orig t) | l => l end in
  match t_allowed t with
  | Some b => b
  | None => same_lines o (de_offset (t_new t))
  end.
(** The loop and lines 272-278; [failed]: there is a program that differs. *)
Inductive verdict := Died | Warned | Fine.
Fixpoint sanity (strict : bool) (failed : bool) (l : list target) : verdict :=
  match l with
  | [] => if failed then (if strict then Died else Warned) else Fine
  | t :: r => match t_debug t with
              | None => Died
              | Some d => sanity strict (if sane_target d t then failed else true) r
              end
  end.
