(** Vocabulary for the statements about installing and comparing programs. *)
From Coq Require Import String.
From Verif Require Import Base StorageModel PkgModel InstModel.
Open Scope list_scope.

(** KP_INSTALL_FILES written as pairs, one to a line: where a program was built, where it is
    installed. *)
Definition pairs := list (list Z * list Z).
Definition pair_text (e : list Z * list Z) : list Z := fst e ++ 32 :: snd e ++ [10].
Definition files_text (l : pairs) : list Z := 10 :: concat (map pair_text l).
Definition plain_word (w : list Z) : Prop := w <> [] /\ forall c, In c w -> c <> 32 /\ c <> 9 /\ c <> 10.
Definition pairs_ok (l : pairs) : Prop := forall b i, In (b, i) l -> plain_word b /\ plain_word i.
(** A pair that installs something. *)
Definition installs (l : pairs) (b i : list Z) : Prop := In (b, i) l /\ i <> str "IGNORE".

(** ** Symbols *)
Definition infix (p s : list Z) : Prop := exists a b, s = a ++ p ++ b.
Definition prefix (p s : list Z) : Prop := exists b, s = p ++ b.
Definition is_alnum (c : Z) : Prop := 48 <= c <= 57 \/ 65 <= c <= 90 \/ 97 <= c <= 122.
Definition optional (p s : list Z) : Prop := s = p \/ s = [].
(** Names the comparison leaves out. *)
Inductive left_out : list Z -> Prop :=
| lo_reserved s : prefix (str "__") s -> left_out s
| lo_local s : prefix (str ".L") s -> left_out s
| lo_numbered w d : w <> [] -> d <> [] -> (forall c, In c w -> is_alnum c \/ c = 95) -> (forall c, In c d -> 48 <= c <= 57) ->
    left_out (w ++ 46 :: d)
| lo_lock r c t u z : optional (str "robust_") r -> optional (str "cond_") c -> optional (str "timed") t -> optional (str "un") u ->
    left_out (str "_L_" ++ r ++ c ++ t ++ u ++ str "lock" ++ z).
(** The section of a symbol: its name and address. *)
Definition placed (l : list srow) (y : yrow) (sname : list Z) (addr : Z) : Prop :=
  match y_shndx y with
  | None => sname = [] /\ addr = 0
  | Some n => exists r, In r l /\ r_num r = n /\ sname = r_name r /\ addr = r_addr r /\ ~ infix (str "kpatch") sname
  end.
(** A function or object that is compared: name, size, section, offset. *)
Definition compared (x : listing) (name : list Z) (size : Z) (sname : list Z) (off : Z) : Prop :=
  exists y addr, In y (snd x) /\ y_value y <> 0 /\ (y_type y = str "FUNC" \/ y_type y = str "OBJECT") /\ ~ left_out (y_name y) /\
    placed (fst x) y sname addr /\ name = y_name y /\ size = y_size y /\ off = y_value y - addr.
(** Rows as readelf prints them: each section once, numbered from 1 (row 0 is empty), no address
    below 0; symbols name sections that are there. *)
Definition listing_ok (x : listing) : Prop :=
  NoDup (map r_num (fst x)) /\ (forall r, In r (fst x) -> 0 < r_num r /\ 0 <= r_addr r) /\
  (forall y n, In y (snd x) -> y_shndx y = Some n -> In n (map r_num (fst x))).
(** The same listing with the sections at other addresses. *)
Definition shift_sect (d : Z -> Z) (r : srow) : srow := {| r_num := r_num r; r_name := r_name r; r_addr := r_addr r + d (r_num r) |}.
Definition shift_sym (d : Z -> Z) (y : yrow) : yrow :=
  {| y_value := match y_shndx y with Some n => y_value y + d n | None => y_value y end; y_size := y_size y; y_type := y_type y;
     y_shndx := y_shndx y; y_name := y_name y |}.
Definition shift (d : Z -> Z) (x : listing) : listing := (map (shift_sect d) (fst x), map (shift_sym d) (snd x)).
