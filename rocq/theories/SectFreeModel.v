(** The lifetime of the descriptions of sections in kpatch_gensrc:
    kpatch_parse.c:565-776 and main, kpatch_gensrc.c:1776-1797.
    Definitions only.  What the descriptions say is in ParseModel. *)
From Verif Require Import Base.
Open Scope list_scope.

(** A pointer to a description: the [n]th predefined one, or one from malloc, which
    are numbered in the order they are made. *)
Inductive ptr := Static (n : nat) | Heap (id : nat).
Definition ptr_eqb (p q : ptr) : bool :=
  match p, q with
  | Static a, Static b | Heap a, Heap b => Nat.eqb a b
  | _, _ => false
  end.

(** Outcomes: a value; a use of freed memory or a free of what is not from malloc or
    was freed; kpfatal. *)
Inductive out (A : Type) := Fine (x : A) | Bad | Fatal.
Arguments Fine {A}. Arguments Bad {A}. Arguments Fatal {A}.
Definition bind {A B} (r : out A) (f : A -> out B) : out B :=
  match r with Fine x => f x | Bad => Bad | Fatal => Fatal end.
Notation "'let!' x := r 'in' k" := (bind r (fun x => k))
  (at level 200, x pattern, r at level 100, k at level 200).

(** The memory: for each description made its [prev], those freed, and the tree
    sections_rbroot_byname with its names. *)
Record mem := mkMem { prevs : list ptr; freed : list nat; byname : list (list Z * ptr) }.

(** Whether a description may be read. *)
Definition live (m : mem) (p : ptr) : bool :=
  match p with
  | Static _ => true
  | Heap id => Nat.ltb id (length (prevs m)) && negb (existsb (Nat.eqb id) (freed m))
  end.

(** What parse_section (710-732) does with a line: nothing, a section by its name
    (.text, .data, .bss and the lines read by __parse_section), the one before
    (.previous, .popsection), the same again (.subsection). *)
Inductive kind := KNone | KNamed (must : bool) (name : list Z) | KPrev | KSame.

(** find_section, 616-627: the search reads the names in the tree. *)
Fixpoint find_byname (m : mem) (t : list (list Z * ptr)) (name : list Z) : out (option ptr) :=
  match t with
  | [] => Fine None
  | (n, p) :: r =>
      if negb (live m p) then Bad
      else if list_eqb n name then Fine (Some p) else find_byname m r name
  end.

(** malloc and [sect->prev = f->section[i - 1]], 752. *)
Definition new_desc (m : mem) (cur : ptr) : mem * ptr :=
  (mkMem (prevs m ++ [cur]) (freed m) (byname m), Heap (length (prevs m))).

(** dup_section, 629-641: it reads the description; kpfatal for NULL. *)
Definition dup (m : mem) (p : option ptr) (cur : ptr) : out (mem * ptr) :=
  match p with
  | None => Fatal
  | Some q => if live m q then Fine (new_desc m cur) else Bad
  end.

(** [cur->prev]; that of a predefined one is NULL. *)
Definition prev_of (m : mem) (p : ptr) : out (option ptr) :=
  if negb (live m p) then Bad
  else match p with
       | Static _ => Fine None
       | Heap id => Fine (nth_error (prevs m) id)
       end.

(** A line in the loop of init_sections, 749-757: the description for it.  A section
    that is not in the tree is put there (706), but .text, .data and .bss must be. *)
Definition sect_line (m : mem) (cur : ptr) (k : kind) : out (mem * ptr) :=
  match k with
  | KNone => Fine (m, cur)
  | KNamed must name =>
      let! f := find_byname m (byname m) name in
      match f with
      | Some p => dup m (Some p) cur
      | None => if must then Fatal
                else let (m', p) := new_desc m cur in
                     Fine (mkMem (prevs m') (freed m') (byname m' ++ [(name, p)]), p)
      end
  | KPrev => let! q := prev_of m cur in dup m q cur
  | KSame => dup m (Some cur) cur
  end.

Fixpoint sect_lines (m : mem) (cur : ptr) (ks : list kind) : out (mem * list ptr) :=
  match ks with
  | [] => Fine (m, [])
  | k :: r => let! (m1, p) := sect_line m cur k in
              let! (m2, ps) := sect_lines m1 p r in Fine (m2, p :: ps)
  end.

(** init_sections, 734-758: f->section.  [text]: the predefined .text. *)
Definition init_sects (m : mem) (text : nat) (ks : list kind) : out (mem * list ptr) :=
  let! (m', ps) := sect_lines m (Static text) ks in Fine (m', Static text :: ps).

(** free(secs[i]->name); free(secs[i]), 771-772. *)
Definition free_desc (m : mem) (p : ptr) : out mem :=
  match p with
  | Static _ => Bad
  | Heap id => if live m p then Fine (mkMem (prevs m) (id :: freed m) (byname m)) else Bad
  end.

(** free_sections, 760-776: line 0 is not looked at but to compare with. *)
Fixpoint free_from (m : mem) (before : ptr) (ps : list ptr) : out mem :=
  match ps with
  | [] => Fine m
  | p :: r => if ptr_eqb p before then free_from m p r
              else let! m' := free_desc m p in free_from m' p r
  end.
Definition free_sects (m : mem) (secs : list ptr) : out mem :=
  match secs with [] => Fine m | p :: r => free_from m p r end.

(** The predefined descriptions and the tree of them, 739-741. *)
Fixpoint statics (n : nat) (names : list (list Z)) : list (list Z * ptr) :=
  match names with [] => [] | x :: r => (x, Static n) :: statics (S n) r end.

(** main, kpatch_gensrc.c:1778, 1796-1797: both files read, then both closed.  Simplified: a
    file has at least one line; a name and its description are freed as one thing; the
    memory has room; the blocks and the output in between do not free descriptions. *)
Definition gensrc_sections (names : list (list Z)) (text : nat) (ks0 ks1 : list kind) : out mem :=
  let! (m0, s0) := init_sects (mkMem [] [] (statics 0 names)) text ks0 in
  let! (m1, s1) := init_sects m0 text ks1 in
  let! m2 := free_sects m1 s0 in
  free_sects m2 s1.
