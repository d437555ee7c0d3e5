(** The arrays of lines of kpatch_gensrc and how they grow: kpatch_io.c,
    arch/x86/arch_parse.c.  Definitions only.  TextModel has the lines as lists; here
    are the arrays with their sizes. *)
From Verif Require Import Base.
Open Scope list_scope.
Open Scope Z_scope.

(** Outcomes: a value, an access outside an array, kpfatal. *)
Inductive out (A : Type) := Fine (x : A) | Outside | Fatal.
Arguments Fine {A}. Arguments Outside {A}. Arguments Fatal {A}.
Definition bind {A B} (r : out A) (f : A -> out B) : out B :=
  match r with Fine x => f x | Outside => Outside | Fatal => Fatal end.
Notation "'let!' x := r 'in' k" := (bind r (fun x => k))
  (at level 200, x pattern, r at level 100, k at level 200).

(** An array: its cells, [None] where nothing was written yet. *)
Definition arr (A : Type) := list (option A).

Fixpoint put {A} (n : nat) (x : A) (a : arr A) : out (arr A) :=
  match a, n with
  | [], _ => Outside
  | _ :: r, O => Fine (Some x :: r)
  | c :: r, S n => let! r' := put n x r in Fine (c :: r')
  end.

(** A store at index [i]. *)
Definition store {A} (a : arr A) (i : Z) (x : A) : out (arr A) :=
  if i <? 0 then Outside else put (Z.to_nat i) x a.

(** kp_realloc, kpatch_io.c:17-32, counted in elements: memcpy must not read behind
    the old array.  The sizes in bytes are taken to fit an int. *)
Definition kp_realloc {A} (p : option (arr A)) (oldsz newsz : Z) : out (arr A) :=
  match p with
  | None => Fine (repeat None (Z.to_nat newsz))
  | Some a =>
      let sz := if newsz <? oldsz then newsz else oldsz in
      if zlen a <? sz then Outside
      else Fine (firstn (Z.to_nat sz) a ++ repeat None (Z.to_nat (newsz - sz)))
  end.

(** The loop of read_file, kpatch_io.c:66-79, for the lines that fgets gives; the
    state is nr_lines, sz and the array.  The growing comes before the look for
    another line. *)
Definition grow_read {A} (nr sz : Z) (lines : option (arr A)) : out (Z * arr A) :=
  match lines with
  | Some a => if sz <=? nr
              then let! a' := kp_realloc lines (sz * 2 / 2) (sz * 2) in Fine (sz * 2, a')
              else Fine (sz, a)
  | None => let! a' := kp_realloc lines (sz * 2 / 2) (sz * 2) in Fine (sz * 2, a')
  end.
Fixpoint read_loop {A} (nr sz : Z) (lines : option (arr A)) (input : list A)
    : out (Z * Z * arr A) :=
  let! (sz', a) := grow_read nr sz lines in
  match input with
  | [] => Fine (nr, sz', a)
  | x :: r => let! a' := store a nr x in read_loop (nr + 1) sz' (Some a') r
  end.
(** read_file, kpatch_io.c:43-84, without the names: the array and nr_lines;
    [empty] is the text of line 0. *)
Definition read_array {A} (empty : A) (input : list A) : out (arr A * Z) :=
  let! (nr, _, a) := read_loop 1 64 None input in
  let! a' := store a 0 empty in Fine (a', nr).

(** A line as init_multilines takes it apart: the statements copied, and the rest at
    [done], where there is one; arch/x86/arch_parse.c:212-253. *)
Definition taken (A : Type) := (list A * option A)%type.

(** The two arrays. *)
Definition two (A : Type) := (arr A * arr Z)%type.
Definition store2 {A} (t : two A) (nr : Z) (x : A) (i : Z) : out (two A) :=
  let! l := store (fst t) nr x in let! n := store (snd t) nr i in Fine (l, n).

(** The statements, 240-245: a store to each array, then the check. *)
Fixpoint store_all {A} (t : two A) (nr sz i : Z) (xs : list A) : out (two A * Z) :=
  match xs with
  | [] => Fine (t, nr)
  | x :: r => let! t' := store2 t nr x i in
              if sz <=? nr + 1 then Fatal else store_all t' (nr + 1) sz i r
  end.

(** One line, 206-253. *)
Definition multi_line {A} (t : option (two A)) (nr sz i : Z) (x : taken A)
    : out (two A * Z * Z) :=
  let grow :=
    let! l := kp_realloc (option_map fst t) (sz * 2 / 2) (sz * 2) in
    let! n := kp_realloc (option_map snd t) (sz * 2 / 2) (sz * 2) in
    Fine ((l, n), sz * 2) in
  let! (t1, sz1) := match t with
                    | None => grow
                    | Some t0 => if sz <=? nr + 1000 then grow else Fine (t0, sz)
                    end in
  let! (t2, nr2) := store_all t1 nr sz1 i (fst x) in
  match snd x with
  | None => Fine (t2, nr2, sz1)
  | Some s => let! t3 := store2 t2 nr2 s i in Fine (t3, nr2 + 1, sz1)     (* done: *)
  end.
Fixpoint multi_loop {A} (t : option (two A)) (nr sz i : Z) (ls : list (taken A))
    : out (option (two A) * Z) :=
  match ls with
  | [] => Fine (t, nr)
  | x :: r => let! (t', nr', sz') := multi_line t nr sz i x in
              multi_loop (Some t') nr' sz' (i + 1) r
  end.
(** init_multilines, 198-258: lines, lines_num and nr_lines. *)
Definition multi_arrays {A} (ls : list (taken A)) : out (option (two A) * Z) :=
  multi_loop None 0 64 0 ls.
