(** What filtering debug information out of an assembler file means, in terms of the
    tokens of the statements. *)
From Coq Require Import String.
From Verif Require Import Base StorageModel TextModel TextSpec RenameSpec DbgModel.
Open Scope list_scope.

(** The first word of a statement is [w], or begins with [p]. *)
Definition first_word (s w : list Z) : Prop := exists ts, has_tokens s (w :: ts).
Definition begins (s p : list Z) : Prop := exists r, first_word s (p ++ r).
(** A debug statement: labels of the compiler for debug information and for hot and cold
    code, comments, .loc, .file with a number, and .cfi... when asked for *)
Definition debug_line (o : dopts) (s : list Z) : Prop :=
  (exists p, In p (map str [".LCOLD"; ".LHOT"; "#"; ".LBB"; ".LBE"; ".LFB"; ".LCFI"; ".LFE"; ".LVL"]%string) /\ begins s p)
  \/ first_word s (str ".loc")
  \/ (exists d r ts, 48 <= d <= 57 /\ has_tokens s (str ".file" :: (d :: r) :: ts))
  \/ (do_cfi o = true /\ begins s (str ".cfi")).
(** Labels of the beginning and the end of the text *)
Definition text_label (s : list Z) : Prop := begins s (str ".Ltext") \/ begins s (str ".Letext").
(** Debug sections; those of unwinding and exceptions when asked for *)
Definition debug_prefix (o : dopts) (p : list Z) : Prop :=
  p = str ".debug_" \/ (do_eh o = true /\ p = str ".eh_frame") \/ (do_except o = true /\ p = str ".gcc_except_table").
Definition opens (s p : list Z) : Prop := exists r ts, has_tokens s (str ".section" :: (p ++ r) :: ts).
(** What may stand in them: alignment, data and labels *)
Definition section_line (a : parch) (s : list Z) : Prop :=
  exists w ts, has_tokens s (w :: ts)
    /\ (In w [str ".align"; str ".p2align"] \/ In w (pa_data a) \/ exists ts', ts = [58] :: ts').
(** Sections one after the other *)
Inductive sections (a : parch) (p : list Z) : list stmt -> Prop :=
| ss_nil : sections a p []
| ss_cons : forall x b t r, opens (st_text x) p -> Forall (fun y => section_line a (st_text y)) b ->
    (t = [] \/ exists y, t = [y] /\ first_word (st_text y) (str ".previous")) ->
    sections a p r -> sections a p (x :: b ++ t ++ r).

(** A group of statements left out before the statements [r].  The second last is wrong
    (C49_text_dropped_refuted). *)
Inductive group (a : parch) (o : dopts) : list stmt -> list stmt -> Prop :=
| gr_line : forall x r, debug_line o (st_text x) -> group a o [x] r
| gr_label : forall x r, text_label (st_text x) -> group a o [x] r
| gr_text : forall x y z r, first_word (st_text x) (str ".text") -> text_label (st_text z) -> group a o [x; y] (z :: r)
| gr_sections : forall p d r, debug_prefix o p -> d <> [] -> sections a p d -> group a o d r.

(** The text that is left.  What follows a statement is a newline when the next statement
    of the file is in another line, else a semicolon and a blank, else nothing, after a
    label.  A group leaves as many empty lines as it has statements, or one when these are
    more than 16, when asked for. *)
Definition after_stmt (x : stmt) (r : list stmt) (e : list Z) : Prop :=
  let other_line := st_num x <> match r with [] => 0%nat | y :: _ => st_num y end in
  (other_line /\ e = [10])
  \/ (~ other_line /\ (exists q c, st_text x = q ++ [c] /\ c <> 58) /\ e = [59; 32])
  \/ (~ other_line /\ (exists q, st_text x = q ++ [58]) /\ e = []).
Definition blank_lines (o : dopts) (n : nat) (gap : list Z) : Prop :=
  (do_newlines o = false /\ gap = [])
  \/ (do_newlines o = true /\ (n <= 16)%nat /\ gap = repeat 10 n)
  \/ (do_newlines o = true /\ (16 < n)%nat /\ gap = [10]).
Inductive filtered (a : parch) (o : dopts) : list stmt -> list Z -> Prop :=
| fd_nil : filtered a o [] []
| fd_keep : forall x r e out, ~ debug_line o (st_text x) -> ~ text_label (st_text x) ->
    (forall p, debug_prefix o p -> ~ opens (st_text x) p) ->
    after_stmt x r e -> filtered a o r out -> filtered a o (x :: r) (st_text x ++ e ++ out)
| fd_drop : forall d r gap out, group a o d r -> blank_lines o (length d) gap ->
    filtered a o r out -> filtered a o (d ++ r) (gap ++ out).
