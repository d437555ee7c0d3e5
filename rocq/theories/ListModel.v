(** The linked lists of the tools (/repo/src/include/list.h) in memory.  Definitions
    only.  The functions the tools do not use (list_replace, list_splice, cutting) are in
    ListMoreModel. *)
From Verif Require Import Base TextModel.
Open Scope list_scope.

(** ** Memory *)
(** struct list_head, list.h:16-18; memory has such a structure at an address or nothing.
    Simplification: the structure is one cell; what surrounds it (list_entry) is reached
    by its address. *)
Record node := { nx : Z; pv : Z }.
Definition heap := Z -> option node.
Definition upd (a : Z) (v : option node) (h : heap) : heap := fun b => if b =? a then v else h b.
(** Reading and writing what is not there is [Crash]. *)
Definition next (a : Z) (h : heap) : res Z := match h a with Some n => Ok (nx n) | None => Crash end.
Definition prev (a : Z) (h : heap) : res Z := match h a with Some n => Ok (pv n) | None => Crash end.
Definition set_next (a v : Z) (h : heap) : res heap :=
  match h a with Some n => Ok (upd a (Some {| nx := v; pv := pv n |}) h) | None => Crash end.
Definition set_prev (a v : Z) (h : heap) : res heap :=
  match h a with Some n => Ok (upd a (Some {| nx := nx n; pv := v |}) h) | None => Crash end.
(** free(): of what is there *)
Definition mfree (a : Z) (h : heap) : res heap :=
  match h a with Some _ => Ok (upd a None h) | None => Crash end.

(** ** list.h *)
(** list_init, 26-30 *)
Definition list_init (a : Z) (h : heap) : res heap := do h1 <- set_next a a h; set_prev a a h1.
(** __list_add, 38-46 *)
Definition list_add_between (new p n : Z) (h : heap) : res heap :=
  do h1 <- set_prev n new h;
  do h2 <- set_next new n h1;
  do h3 <- set_prev new p h2;
  set_next p new h3.
(** list_add_head, 56-59 *)
Definition list_add_head (new head : Z) (h : heap) : res heap := do n <- next head h; list_add_between new head n h.
(** list_add, 70-73 *)
Definition list_add (new head : Z) (h : heap) : res heap := do p <- prev head h; list_add_between new p head h.
(** __list_del, list_del, 82-103 *)
Definition list_del (x : Z) (h : heap) : res heap :=
  do p <- prev x h;
  do n <- next x h;
  do h1 <- set_prev n p h;
  set_next p n h1.
(** list_move and list_move_tail, 126-142: the same *)
Definition list_move (x head : Z) (h : heap) : res heap := do h1 <- list_del x h; list_add x head h1.
(** list_is_last, 149-153; list_empty, 159-162; list_is_singular, 201-204 *)
Definition list_is_last (x head : Z) (h : heap) : res bool := do n <- next x h; Ok (n =? head).
Definition list_empty (head : Z) (h : heap) : res bool := do n <- next head h; Ok (n =? head).
Definition list_is_singular (head : Z) (h : heap) : res bool :=
  do n <- next head h; if n =? head then Ok false else do p <- prev head h; Ok (n =? p).
(** list_rotate_left, 187-195 *)
Definition list_rotate_left (head : Z) (h : heap) : res heap :=
  do e <- list_empty head h; if e then Ok h else do f <- next head h; list_move f head h.
(** list_for_each_entry, 359-362: the entries seen; the body may change memory *)
Fixpoint each_from (n : nat) (head pos : Z) (body : Z -> heap -> res heap) (h : heap) : res (list Z * heap) :=
  match n with
  | O => Fuel
  | S n' => if pos =? head then Ok ([], h)
            else do h1 <- body pos h;
                 do q <- next pos h1;
                 do r <- each_from n' head q body h1;
                 Ok (pos :: fst r, snd r)
  end.
Definition for_each (n : nat) (head : Z) (body : Z -> heap -> res heap) (h : heap) : res (list Z * heap) :=
  do f <- next head h; each_from n head f body h.
(** list_for_each_entry_reverse, 370-373 *)
Fixpoint each_back (n : nat) (head pos : Z) (body : Z -> heap -> res heap) (h : heap) : res (list Z * heap) :=
  match n with
  | O => Fuel
  | S n' => if pos =? head then Ok ([], h)
            else do h1 <- body pos h;
                 do q <- prev pos h1;
                 do r <- each_back n' head q body h1;
                 Ok (pos :: fst r, snd r)
  end.
Definition for_each_reverse (n : nat) (head : Z) (body : Z -> heap -> res heap) (h : heap) : res (list Z * heap) :=
  do f <- prev head h; each_back n head f body h.
(** list_for_each_entry_safe, 446-450 *)
Fixpoint each_safe (n : nat) (head pos nxt : Z) (body : Z -> heap -> res heap) (h : heap) : res (list Z * heap) :=
  match n with
  | O => Fuel
  | S n' => if pos =? head then Ok ([], h)
            else do h1 <- body pos h;
                 do q <- next nxt h1;
                 do r <- each_safe n' head nxt q body h1;
                 Ok (pos :: fst r, snd r)
  end.
Definition for_each_safe (n : nat) (head : Z) (body : Z -> heap -> res heap) (h : heap) : res (list Z * heap) :=
  do f <- next head h; do q <- next f h; each_safe n head f q body h.

(** ** Operations of a program on its lists *)
Inductive lop :=
| Init (head : Z)          (* list_init of a new list *)
| Add (x head : Z)         (* list_add to a list *)
| AddHead (x head : Z)     (* list_add_head *)
| Before (x y : Z)         (* list_add with an entry for the head *)
| Del (x : Z).             (* list_del *)
Definition lexec (o : lop) (h : heap) : res heap :=
  match o with
  | Init a => list_init a h
  | Add x a => list_add x a h
  | AddHead x a => list_add_head x a h
  | Before x y => list_add x y h
  | Del x => list_del x h
  end.
Fixpoint lrun (os : list lop) (h : heap) : res heap :=
  match os with [] => Ok h | o :: r => do h1 <- lexec o h; lrun r h1 end.

(** ** Freeing what a process structure holds *)
(** The loops "list_del; free", kpatch_process.c:332-335, 336-339, 1174-1178,
    kpatch_coro.c:33-38, 477-479, kpatch_ptrace.c:688-692 *)
Definition del_free (x : Z) (h : heap) : res heap := do h1 <- list_del x h; mfree x h1.
Definition free_list (n : nat) (head : Z) (h : heap) : res heap :=
  do r <- for_each_safe n head del_free h; Ok (snd r).
(** An object: its entry in the list of objects, the heads of its areas and of the
    patches applied to it, which are parts of one block of memory *)
Definition vmas_of (o : Z) : Z := o + 1.
Definition patches_of (o : Z) : Z := o + 2.
Definition free_object_block (o : Z) (h : heap) : res heap :=
  do h1 <- mfree o h; do h2 <- mfree (vmas_of o) h1; mfree (patches_of o) h2.
(** object_destroy, kpatch_process.c:325-358.  Simplification: the other blocks an object
    owns (name, headers, symbols) are left out. *)
Definition object_destroy (n : nat) (o : Z) (h : heap) : res heap :=
  do h1 <- list_del o h;
  do h2 <- free_list n (vmas_of o) h1;
  do h3 <- free_list n (patches_of o) h2;
  free_object_block o h3.
(** process_destroy_object_files, 605-612 *)
Definition destroy_objects (n : nat) (head : Z) (h : heap) : res heap :=
  do r <- for_each_safe n head (object_destroy n) h; Ok (snd r).
(** The lists of kpatch_process_free, 1166-1184: the gaps, the coroutines (whose loop an
    empty list does not enter, kpatch_coro.c:476), the contexts, the objects *)
Definition process_free (n : nat) (holes coros pctxs objs : Z) (h : heap) : res heap :=
  do h1 <- free_list n holes h;
  do e <- list_empty coros h1;
  do h2 <- if e then Ok h1 else free_list n coros h1;
  do h3 <- free_list n pctxs h2;
  destroy_objects n objs h3.
