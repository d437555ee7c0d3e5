(** The archive libcare-pkgbuild keeps between its stages, and the packages it installs; scripts/pkgbuild. *)
From Coq Require Import String.
From Verif Require Import Base StorageModel TextModel LoptModel InstModel.
Open Scope list_scope.

(** The disk: the files with their full names, of two with one name the first counts; and, kept apart from the files, the
    archives with their members.  Simplifications: a directory is there if a file is in it; no links, owners or modes. *)
Definition tree := list (text * text).
Record disk := { files : tree; archives : list (text * tree) }.
Fixpoint look {X : Type} (l : list (text * X)) (p : text) : option X :=
  match l with
  | [] => None
  | (q, x) :: r => if list_eqb q p then Some x else look r p
  end.
Definition under (d p : text) : bool := list_eqb d p || begins (d ++ str "/") p.

(** rm -rf *)
Definition kept {X : Type} (ds : list text) (l : list (text * X)) : list (text * X) :=
  filter (fun e => negb (existsb (fun d => under d (fst e)) ds)) l.
Definition rm_rf (ds : list text) (k : disk) : disk :=
  {| files := kept ds (files k); archives := kept ds (archives k) |}.
(** tar(1) takes the slashes in front off the names it stores; -C / puts one back *)
Fixpoint stored (p : text) : text := match p with [] => [] | c :: r => if c =? 47 then stored r else p end.
Definition member (e : text * text) : text * text := (stored (fst e), snd e).
Definition extracted (e : text * text) : text * text := (47 :: fst e, snd e).

Section Stages.
(** PDIR, KP_PROJECT_BUILD_ROOT, KP_PROJECT_PREBUILT.  Simplification: none of them has blanks, and the shell cuts nothing. *)
Variables pd br name : text.
Definition root_original : text := pd ++ str "/root.original".                   (* line 69 *)
Definition root_patched : text := pd ++ str "/root.patched".                     (* line 70 *)
Definition archive_name : text := pd ++ str "/" ++ name.
(** clean_dirs, lines 73-76 *)
Definition clean_dirs : disk -> disk := rm_rf [br; root_original; root_patched].
(** kp_pack_prebuilt, lines 83-90; tar fails if one of the two is not there *)
Definition pack_prebuilt (k : disk) : option disk :=
  let b := filter (fun e => under br (fst e)) (files k) in
  let o := filter (fun e => under root_original (fst e)) (files k) in
  match b, o with
  | _ :: _, _ :: _ => Some {| files := files k; archives := (archive_name, map member (b ++ o)) :: archives k |}
  | _, _ => None
  end.
(** kp_unpack_prebuilt, lines 92-95 *)
Definition unpack_prebuilt (k : disk) : option disk :=
  match look (archives k) archive_name with
  | None => None
  | Some ms => Some {| files := map extracted ms ++ files k; archives := archives k |}
  end.

(** The stage --prebuild; [work]: kp_prepare_source, the hook and kp_prebuild, lines 130-137 and 222-226, which do what they like *)
Definition prebuild_stage (work : disk -> option disk) (k : disk) : option disk :=
  match work (clean_dirs k) with None => None | Some k' => pack_prebuilt k' end.
(** How building and testing begin.  Simplification: kp_prepare_env_hook, 78-81, changes no file. *)
Definition later_stage (k : disk) : option disk := unpack_prebuilt (clean_dirs k).
End Stages.

(** grep(1) on one line.  Simplification: of the special characters only the dot is treated. *)
Fixpoint here (pat line : text) : bool :=
  match pat, line with
  | [], _ => true
  | _, [] => false
  | p :: pat', c :: line' => ((p =? 46) || (p =? c)) && here pat' line'
  end.
Fixpoint grep (pat line : text) : bool :=
  here pat line || match line with [] => false | _ :: r => grep pat r end.
(** kp_install_orig_rpm, lines 215-219: the packages that are installed, in order; [ls] what is in KP_PROJECT_ORIG_RPMS.  An empty
    KP_PROJECT_SOURCE leaves grep without a pattern, so that it prints nothing. *)
Definition installed (source : text) (ls : list text) : list text :=
  match source with
  | [] => []
  | _ => filter (fun n => negb (grep source n)) ls
  end.
