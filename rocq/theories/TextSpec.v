(** What tokens, statements and renames of a line are, in terms of the text only. *)
From Coq Require Import String.
From Verif Require Import Base StorageModel.
Open Scope list_scope.

(** Blanks are spaces and tabs. *)
Definition blank (s : list Z) : Prop := Forall (fun c => c = 32 \/ c = 9) s.
(** Where a line ends: at the end of the string or at a newline *)
Definition ends (s : list Z) : Prop := s = [] \/ exists r, s = 10 :: r.

(** A quoted string: the opening quote, bytes and escaped bytes, the closing quote;
    a string not closed runs to the end. *)
Inductive quote_body : list Z -> Prop :=
| qb_nil : quote_body []
| qb_esc : forall c b, quote_body b -> quote_body (92 :: c :: b)
| qb_chr : forall c b, c <> 92 -> c <> 34 -> quote_body b -> quote_body (c :: b).
Inductive token_shape (delim : list Z) : list Z -> list Z -> Prop :=
| ts_delim : forall c r, In c delim -> c <> 34 -> c <> 32 -> c <> 9 -> token_shape delim [c] r
| ts_word : forall t r, t <> [] -> Forall (fun c => ~ In c delim) t -> hd_error t <> Some 34 ->
                        (forall c r', r = c :: r' -> In c delim) -> token_shape delim t r
| ts_quoted : forall b r, quote_body b -> token_shape delim (34 :: b ++ [34]) r
| ts_open : forall b, quote_body b -> token_shape delim (34 :: b) []
| ts_open_backslash : forall b, quote_body b -> token_shape delim (34 :: b ++ [92]) [].

(** Pieces: blanks and a token, again and again; then the blanks at the end *)
Fixpoint glue (l : list (list Z * list Z)) (last : list Z) : list Z :=
  match l with [] => last | (g, t) :: r => g ++ t ++ glue r last end.
(** [pieces delim s l last]: the line [s] is glued from the pieces [l] and [last], up to
    where it ends. *)
Inductive pieces (delim : list Z) : list Z -> list (list Z * list Z) -> list Z -> Prop :=
| pc_end : forall g e, blank g -> ends e -> pieces delim (g ++ e) [] g
| pc_token : forall g t r l last, blank g -> t <> [] -> ~ ends t -> token_shape delim t r ->
    pieces delim r l last -> pieces delim (g ++ t ++ r) ((g, t) :: l) last.

(** No newline in a line *)
Definition one_line (s : list Z) : Prop := ~ In 10 s.

Definition asm_delims : list Z := [32; 9; 44; 59; 58; 45; 43; 42; 40; 41; 91; 93; 36; 10].

(** ** Statements of a line: separated by semicolons, a label ends with its colon.
    The last piece is a statement or a comment. *)
Inductive split_of : list Z -> list (list Z) -> Prop :=
| so_whole : forall s, split_of s [s]
| so_semi : forall p g r ps, blank g -> split_of r ps -> split_of (p ++ 59 :: g ++ r) (p :: ps)
| so_semi_end : forall p g, blank g -> split_of (p ++ 59 :: g) [p]
| so_label : forall p r ps, r <> [] -> split_of r ps -> split_of (p ++ 58 :: r) ((p ++ [58]) :: ps).

(** ** Lines of a file *)
(** [lines_of s ls]: cutting [s] behind every newline gives [ls]. *)
Inductive lines_of : list Z -> list (list Z) -> Prop :=
| lo_nil : lines_of [] []
| lo_last : forall s, s <> [] -> ~ In 10 s -> lines_of s [s]
| lo_line : forall l s ls, ~ In 10 l -> lines_of s ls -> lines_of (l ++ 10 :: s) (l :: ls).

(** A single statement: no token of it is a semicolon. *)
Definition one_statement (s : list Z) : Prop :=
  exists l last, pieces asm_delims s l last /\ ~ In [59] (map snd l).
(** The first token that begins with a comment sign, [signs] *)
Definition has_comment (signs : list (list Z)) (s : list Z) : Prop :=
  exists l last t, pieces asm_delims s l last /\ In t (map snd l) /\ In t signs.
(** The second token of a statement is a colon only at its end. *)
Definition label_alone (p : list Z) : Prop :=
  forall g1 t1 g2 l last, pieces asm_delims p ((g1, t1) :: (g2, [58]) :: l) last -> l = [].
