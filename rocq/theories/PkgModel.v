(** scripts/pkgbuild (the bash script libcare-pkgbuild): making the patches of a package from
    a list of source patches, packing them, and unpacking them into a store.
    Definitions only. *)
From Coq Require Import String.
From Verif Require Import Base StorageModel.
Open Scope list_scope.
Notation text := (list Z) (only parsing).

(** ** The list of patches: patch_list_apply, scripts/pkgbuild:139-186, and the same text in
    scripts/patch_list_apply:22-53. *)

(** `read NAME` of bash without -r: one line; a backslash takes the next character as it is,
    and a backslash at the end of a line joins the next one.  [None]: the end of the file
    comes before the end of the line (then the loop stops and what was read is not looked
    at).  A character comes with whether it was escaped. *)
Fixpoint read_raw (acc : list (Z * bool)) (s : text) : option (list (Z * bool) * text) :=
  match s with
  | [] => None
  | c :: r =>
      if c =? 10 then Some (acc, r)
      else if c =? 92 then
        match r with
        | [] => None
        | d :: r' => if d =? 10 then read_raw acc r' else read_raw (acc ++ [(d, true)]) r'
        end
      else read_raw (acc ++ [(c, false)]) r
  end.
(** Blanks at both ends go, unless escaped (IFS: space, tab, newline). *)
Definition blank (x : Z * bool) : bool := negb (snd x) && ((fst x =? 32) || (fst x =? 9)).
Fixpoint drop_blanks (l : list (Z * bool)) : list (Z * bool) :=
  match l with x :: r => if blank x then drop_blanks r else l | [] => [] end.
Definition strip (l : list (Z * bool)) : text := map fst (rev (drop_blanks (rev (drop_blanks l)))).

(** Words of an unquoted expansion: more than one makes the redirection fail ("ambiguous
    redirect").  Simplification: the characters star, question mark and bracket in a name,
    and a name that is an option of echo, are not modelled. *)
Definition has_blank (n : text) : bool := existsb (fun c => (c =? 32) || (c =? 9) || (c =? 10)) n.
Inductive line := Skip | Name (n : text) | Ambiguous (n : text).
(** Lines 166-173: COMMENT is the first character of the first word. *)
Fixpoint first_char (n : text) : option Z :=
  match n with
  | [] => None
  | c :: r => if (c =? 32) || (c =? 9) || (c =? 10) then first_char r else Some c
  end.
Definition line_of (n : text) : line :=
  match first_char n with
  | Some 35 => Skip
  | _ => match n with
         | [] => Skip
         | _ => if has_blank n then Ambiguous n else Name n
         end
  end.

Section Tree.
(** The tree of sources, and `patch -p1` with one patch file: the tree afterwards and whether
    patch succeeded (it fails too if there is no such file). *)
Variable T : Type.
Variable apply : text -> T -> T * bool.

(** The loop, lines 164-183.  [fuel]: the length of the list suffices; [None]: no fuel.
    Result: the names of the patches that were given to patch, the tree, success. *)
Fixpoint apply_list (fuel : nat) (s : text) (t : T) : option (list text * T * bool) :=
  match fuel with
  | O => None
  | S k =>
      match read_raw [] s with
      | None => Some ([], t, true)
      | Some (raw, rest) =>
          match line_of (strip raw) with
          | Skip => apply_list k rest t
          | Ambiguous _ => Some ([], t, false)
          | Name n =>
              let '(t', ok) := apply n t in
              if ok then match apply_list k rest t' with
                         | Some (l, t2, r) => Some (n :: l, t2, r)
                         | None => None
                         end
              else Some ([n], t', false)
          end
      end
  end.
(** Lines 159-161: the list with two newlines (`echo -e "\n"`) at its end. *)
Definition patch_list_apply (plist : text) (t : T) : option (list text * T * bool) :=
  apply_list (S (length plist + 2)) (plist ++ [10; 10]) t.

(** PATCH_ID, line 143: the name of the list up to the first dot.  [None]: empty, an error. *)
Fixpoint upto_dot (s : text) : text := match s with c :: r => if c =? 46 then [] else c :: upto_dot r | [] => [] end.
Definition patch_id (name : text) : option text := match upto_dot name with [] => None | i => Some i end.

(** ** Building and making the patches.  What the other programs do: *)
Record tools := {
  rpmbuild : T -> T * bool;                 (* kp_build_rpm, lines 281-289 *)
  hook : T -> T * bool;                     (* kp_build_hook, given by the project *)
  install : T -> T * bool;                  (* kp_install_rpm, lines 291-356 *)
  sane : T -> bool;                         (* kp_sanity_check, lines 237-279, finds nothing *)
  targets : T -> list text;                 (* find -perm /0111 in root.patched, lines 372-374 *)
  debug_id : T -> text -> text;             (* build id read from the debug file, lines 382-384 *)
  has_kpatch : T -> text -> bool;           (* a section named .kpatch..., line 392 *)
  (* lines 396-408: strip, relocation fixup, undo-link, kpatch_make with a build id and the
     patch id; [None]: one of them fails *)
  make : T -> text -> text -> text -> option text }.

Definition is_empty (s : text) : bool := match s with [] => true | _ => false end.
Fixpoint put (n c : text) (d : list (text * text)) : list (text * text) :=
  match d with
  | [] => [(n, c)]
  | (m, x) :: r => if list_eqb m n then (n, c) :: r else (m, x) :: put n c r
  end.
Definition kpatch_file (b : text) : text := b ++ str ".kpatch".

(** kp_gen_kpatch, lines 369-415.  [override]: KP_PROJECT_BUILD_ID.  [None]: the script ends
    with an error.  [dir] is the directory of the patches, empty at first (lines 376-377);
    lines 379 and 409: whether there was any is whether [dir] is empty. *)
Fixpoint gen_loop (k : tools) (override id : text) (t : T) (l : list text) (dir : list (text * text))
  : option (list (text * text)) :=
  match l with
  | [] => Some dir
  | x :: r =>
      let b := if is_empty override then debug_id k t x else override in
      if is_empty b || negb (has_kpatch k t x) then gen_loop k override id t r dir
      else match make k t b id x with
           | None => None
           | Some c => gen_loop k override id t r (put (kpatch_file b) c dir)
           end
  end.
Definition gen_kpatch (k : tools) (override id : text) (t : T) : option (list (text * text)) :=
  match gen_loop k override id t (targets k t) [] with
  | Some [] => None                                            (* lines 412-414 *)
  | r => r
  end.

(** main, lines 491-498: the action "build", run with `set -e` (lines 9-11).  The status of
    rpmbuild is not looked at: it is piped into tee (lines 287-288) and there is no pipefail.
    [strict]: KP_SANITY_CHECK_STRICTLY = yes.  The result is what is packed (kp_pack_patch,
    lines 417-420); [None]: the script ends with an error and nothing is packed. *)
Definition build (k : tools) (strict : bool) (override name plist : text) (t : T) : option (list (text * text)) :=
  match patch_id name with
  | None => None
  | Some id =>
      match patch_list_apply plist t with
      | Some (_, t1, true) =>
          let '(th, okh) := hook k t1 in
          let '(t2, _) := rpmbuild k th in
          let '(t3, ok) := install k t2 in
          if negb okh || negb ok then None
          else if strict && negb (sane k t3) then None
          else gen_kpatch k override id t3
      | _ => None
      end
  end.
End Tree.

(** ** Unpacking: kp_unpack_patch, lines 422-443.  The store is a set of files and links; names
    are relative to it. *)
Inductive node := File (c : text) | Link (target : text).
Definition store := list (text * node).
Fixpoint lookup (p : text) (f : store) : option node :=
  match f with [] => None | (q, n) :: r => if list_eqb q p then Some n else lookup p r end.
Fixpoint set_node (p : text) (n : node) (f : store) : store :=
  match f with
  | [] => [(p, n)]
  | (q, x) :: r => if list_eqb q p then (p, n) :: r else (q, x) :: set_node p n r
  end.
(** ${patchfile##*/} and ${patchname%.kpatch} *)
Fixpoint after_slash (s : text) : text :=
  match s with
  | [] => []
  | c :: r => if existsb (Z.eqb 47) (c :: r) then after_slash r else c :: r
  end.
Definition cut_suffix (suf s : text) : text :=
  let n := (length s - length suf)%nat in
  if list_eqb (skipn n s) suf && (length suf <=? length s)%nat then firstn n s else s.
(** One file: mkdir -p, cp, ln -rs.  If `latest` is there already, it is a link to a
    directory, and ln puts its link into that directory (a name the store's reader never
    looks at).  Simplification: a third time ln would fail; here it puts the same link again. *)
Definition unpack_one (f : store) (e : text * text) : store :=
  let b := cut_suffix (str ".kpatch") (after_slash (fst e)) in
  let f1 := set_node (b ++ str "/1/kpatch.bin") (File (snd e)) f in
  match lookup (b ++ str "/latest") f1 with
  | None => set_node (b ++ str "/latest") (Link (str "1")) f1
  | Some _ => set_node (b ++ str "/latest/1") (Link (str ".")) f1
  end.
Definition unpack (l : list (text * text)) (f : store) : store := fold_left unpack_one l f.

(** The store as the file system StorageModel reads: a name is looked up as it is, or with its
    directory being a link.  Simplification: links elsewhere in a name are not followed. *)
Fixpoint split_last (s : text) : option (text * text) :=
  match s with
  | [] => None
  | c :: r => match split_last r with
              | Some (d, b) => Some (c :: d, b)
              | None => if c =? 47 then Some ([], r) else None
              end
  end.
Definition content (f : store) (p : text) : option text :=
  match lookup p f with
  | Some (File c) => Some c
  | Some (Link _) => None
  | None =>
      match split_last p with
      | Some (d, b) =>
          match lookup d f, split_last d with
          | Some (Link t), Some (dd, _) =>
              match lookup (dd ++ [47] ++ t ++ [47] ++ b) f with Some (File c) => Some c | _ => None end
          | _, _ => None
          end
      | None => None
      end
  end.
Definition store_fs (f : store) : fsys :=
  {| fs_file := content f;
     fs_stat := fun p => match content f p with Some c => SSize (zlen c) | None => SNoent end;
     fs_link := fun p => match lookup p f with Some (Link t) => Some t | _ => None end |}.
