(** What the properties of libcare-patch-make speak of. *)
From Coq Require Import String.
From Verif Require Import Base StorageModel TextModel LpModel.
Open Scope list_scope.

(** The chain of tools that makes the patch [k] of build id [bid] from the contents of the two executables, every step succeeding. *)
Definition chain (t : tools) (id bid orig patched k : text) : Prop :=
  has_kpatch t patched = true /\
  exists s s2 s3 s4, strip_ t patched = Some s /\ fixup_ t orig s = Some s2 /\ unneeded_ t s2 = Some s3 /\ undo_ t orig s3 = Some s4 /\ make_kpatch t bid id s4 = Some k.
(** The same without a word on whether --undo-link succeeded. *)
Definition chain_weak (t : tools) (id bid orig patched k : text) : Prop :=
  has_kpatch t patched = true /\
  exists s s2 s3, strip_ t patched = Some s /\ fixup_ t orig s = Some s2 /\ unneeded_ t s2 = Some s3 /\
    (match undo_ t orig s3 with Some s4 => make_kpatch t bid id s4 = Some k | None => make_kpatch t bid id s3 = Some k end).

(** The executables are not among the files that are made, and what is made beside them is not in the root. *)
Definition apart (root : text) (xs : list (text * text)) : Prop :=
  forall o p o' p', In (o, p) xs -> In (o', p') xs ->
    (forall q, q = o \/ q = p -> q <> p' ++ str ".stripped" /\ q <> p' ++ str ".kpatch" /\ (forall b, q <> root ++ str "/" ++ b ++ str ".kpatch"))
    /\ (forall b, root ++ str "/" ++ b ++ str ".kpatch" <> p ++ str ".stripped" /\ root ++ str "/" ++ b ++ str ".kpatch" <> p ++ str ".kpatch").

(** A program of one source file under make: the object is compiled again if it is missing or older than the source; install copies it to the directory of the stage; clean removes all three. *)
Section Rules.
Variable c obj : text.
Variable inst : stage -> text.
Variable compile : stage -> text -> text.
Definition rule_make (s : stage) (now : Z) (f : fs) : fs :=
  match lookup c f with
  | Some (File x t) =>
      match lookup obj f with
      | Some (File _ t') => if t' <? t then (obj, File (compile s x) now) :: f else f
      | _ => (obj, File (compile s x) now) :: f
      end
  | _ => f
  end.
Definition rule_install (s : stage) (now : Z) (f : fs) : fs :=
  match lookup obj f with Some (File y _) => (inst s, File y now) :: f | _ => f end.
Definition rule_clean (f : fs) : fs :=
  filter (fun e => if in_dec (list_eq_dec Z.eq_dec) (fst e) [obj; inst Original; inst Patched] then false else true) f.
Definition rules (signal : Z -> bool) : world := World rule_make rule_install rule_clean signal.
End Rules.
